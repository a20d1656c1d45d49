(** * Making a configuration: src/client.rs 1078-1200

    [Config] itself and its defaults are in [Client.v]. *)
From Coq Require Import String List NArith Bool.
From Verif Require Import Base Metadata Client.
Import ListNotations.

(** src/client.rs 1132-1142 [struct ConfigBuilder]. *)
Record config_builder := mkCB {
  cb_max_root : option N;
  cb_max_timestamp : option N;
  cb_max_depth : N;
  cb_translate : translator
}.
(** src/client.rs 1190-1200 [ConfigBuilder::default], which is also 1089-1094 [Config::build]. *)
Definition cb_default : config_builder :=
  mkCB (cf_max_root default_config) (cf_max_timestamp default_config) (cf_max_depth default_config)
       (cf_translate default_config).
(** Calls of src/client.rs 1159-1188.  Only [real_to_virtual] of a translator is given,
    as in [Client.v]. *)
Inductive config_op :=
| CoRoot (max : option N)
| CoTimestamp (max : option N)
| CoDepth (max : N)
| CoTranslator (f : translator).
(** src/client.rs 1159-1188 [max_root_length], [max_timestamp_length],
    [max_delegation_depth], [path_translator], one call. *)
Definition cb_apply (b : config_builder) (o : config_op) : config_builder :=
  match o with
  | CoRoot m => mkCB m (cb_max_timestamp b) (cb_max_depth b) (cb_translate b)
  | CoTimestamp m => mkCB (cb_max_root b) m (cb_max_depth b) (cb_translate b)
  | CoDepth n => mkCB (cb_max_root b) (cb_max_timestamp b) n (cb_translate b)
  | CoTranslator f => mkCB (cb_max_root b) (cb_max_timestamp b) (cb_max_depth b) f
  end.
(** src/client.rs 1149-1156 [finish]. *)
Definition cb_finish (b : config_builder) : result config :=
  Ok (mkConfig (cb_max_root b) (cb_max_timestamp b) (cb_max_depth b) (cb_translate b)).
(** [Config::build()], some calls, [finish()]: src/client.rs 1089-1200. *)
Definition config_of (ops : list config_op) : result config := cb_finish (fold_left cb_apply ops cb_default).
