(** * C114: why a client cannot be started, and why a target cannot be had *)
From Coq Require Import String List NArith ZArith Bool Lia.
From Verif Require Import Base BaseFacts JsonValue JsonText Metadata Verify SpecVerify Paths SpecPaths PathProofs Tuf SpecTuf TufProofs Reader SpecReader Repo Client SpecClient
     ClientLogic ClientProofs Serde Keys Shims KeyToy Toy JsonToy ClientToy SpecErrors SpecWhy WhyProofs.
Import ListNotations.
Open Scope string_scope.
Open Scope list_scope.

(** Starting a client fails only because its first root cannot be read, is refused or cannot be
    stored, and the error says so.  Whatever else the local repository has is no reason. *)
Theorem C114_starts :
  forall (C : crypto) (o : hash_order) (cfg : config) (fuel : nat) (c : ctor) (tr : list event) (er : error),
  let E := mkEnv C o (json_interchange C) in
  exec (construct E cfg fuel c) tr (Ret (Err er)) -> not_started E cfg c tr er.
Proof. intros C o cfg fuel c tr er E X. exact (wp_get _ _ _ _ (wp_started C o cfg fuel c) X). Qed.
Print Assumptions C114_starts.

(** There is no description: the name cannot be translated, metadata are missing, the target
    is not listed, or a terminating delegation for it fails, and the error says how. *)
Theorem C114_descriptions :
  forall (C : crypto) (o : hash_order) (cfg : config) (fuel : nat) (t t' : tuf) (target : string) (tr : list event) (er : error),
  let E := mkEnv C o (json_interchange C) in
  reachable E t -> exec (fetch_target_description E cfg fuel t target) tr (Ret (t', Err er)) ->
  not_described E cfg t target tr er.
Proof. intros C o cfg fuel t t' target tr er E R X. exact (wp_get _ _ _ _ (wp_described C o cfg fuel t target R) X). Qed.
Print Assumptions C114_descriptions.

(** A target is not had: there is no description; or the last thing that happened went wrong,
    with its error.  If it is had, nothing went wrong. *)
Theorem C114_targets :
  forall (C : crypto) (o : hash_order) (cfg : config) (fuel : nat) (t t' : tuf) (target : string) (k : call) (tr : list event) (r : result unit),
  let E := mkEnv C o (json_interchange C) in
  reachable E t -> acceptable_path target -> k = CallTarget target \/ k = CallTargetToWriter target ->
  exec (call_prog E cfg fuel t k) tr (Ret (t', r)) ->
  match r with Ok _ => had E cfg t target k tr | Err er => not_fetched E cfg t target k tr er end.
Proof.
  intros C o cfg fuel t t' target k tr r E R A [-> | ->] X.
  - pose proof (wp_get _ _ _ _ (wp_stored C o cfg fuel t target R A) X) as K. destruct r; exact K.
  - pose proof (wp_get _ _ _ _ (wp_written C o cfg fuel t target R A) X) as K. destruct r; exact K.
Qed.
Print Assumptions C114_targets.

(** ** Examples *)

(** Everything below "c/" is for carol alone. *)
Definition wcarol : targets_metadata := mkTargets 4 new_year [("c/x", mkTargetDesc 5 [(Sha256, digest 1 "hello")] None)] None.
Definition wtargets : targets_metadata :=
  mkTargets 3 new_year [("tool", mkTargetDesc 5 [(Sha256, digest 1 "hello")] None)]
    (Some (mkDelegations (key_table [key_d]) [mkDelegation "carol" true 1 (ids [key_d]) ["c/"]])).
Definition wsnapshot : snapshot_metadata :=
  mkSnapshot 2 new_year [("carol", desc_of 4 (publish_metadata Targets [key_d] wcarol));
                         ("targets", desc_of 3 (publish_metadata Targets [key_g] wtargets))].
Definition wtimestamp : timestamp_metadata := mkTimestamp 7 new_year (desc_of 2 (publish_metadata Snapshot [key_s] wsnapshot)).
Definition wops : list op :=
  [OpTimestamp c50 (publish_metadata Timestamp [key_t] wtimestamp); OpSnapshot c50 (publish_metadata Snapshot [key_s] wsnapshot);
   OpTargets c50 (publish_metadata Targets [key_g] wtargets)].
Definition wfile : bytes := publish_metadata Root [key_r] jroot.
Definition wtuf : tuf := run json_env (tuf_of_root jroot) wops.

(** The remote repository has the tool, but longer, and another file for carol. *)
Definition wremote : ephemeral :=
  mkEphemeral [(("carol", VNone), publish_metadata Targets [key_d] wtargets)] [("tool", "hello, world")].
Definition wrun (k : call) := drive 50 ephemeral_new wremote c50 (call_prog json_env default_config 12 wtuf k).
Definition wstart (c : ctor) := drive 50 ephemeral_new wremote c50 (construct json_env default_config 12 c).
Lemma driven A n l r c (p : prog A) : exec p (fst (fst (drive n l r c p))) (snd (drive n l r c p)).
Proof. destruct (drive n l r c p) as [[tr l'] q'] eqn:H. exact (proj1 (drive_exec n l r c p tr l' q' H)). Qed.

Definition kinds (tr : list event) : list string :=
  map (fun e => match e with EvFetchMeta Local p _ _ _ _ => "local " ++ p | EvFetchMeta Remote p _ _ _ _ => "remote " ++ p
                | EvStoreMeta p _ _ _ => "store " ++ p | EvFetchTarget p _ _ => "fetch " ++ p | EvStoreTarget p _ _ => "keep " ++ p
                | EvWrite b _ => "write " ++ b | EvNow _ => "time" | EvPut _ => "trust" end)%string tr.
Definition answer {A} (q : prog (tuf * result A)) : option error := match q with Ret (_, Err e) => Some e | _ => None end.
Definition start_answer (q : prog (result tuf)) : option error := match q with Ret (Err e) => Some e | _ => None end.

Example C114_case :
  reachable json_env wtuf /\
  (* the target of carol: both repositories fail *)
  exec (call_prog json_env default_config 12 wtuf (CallDescription "c/x")) (fst (fst (wrun (CallDescription "c/x")))) (snd (wrun (CallDescription "c/x"))) /\
  kinds (fst (fst (wrun (CallDescription "c/x")))) = ["local carol"; "remote carol"] /\
  answer (snd (wrun (CallDescription "c/x"))) = Some Opaque /\
  (* a target nobody lists *)
  kinds (fst (fst (wrun (CallTarget "b/x")))) = [] /\ answer (snd (wrun (CallTarget "b/x"))) = Some NotFound /\
  (* a file that is longer than described *)
  kinds (fst (fst (wrun (CallTargetToWriter "tool")))) = ["fetch tool"] /\
  answer (snd (wrun (CallTargetToWriter "tool"))) = Some Opaque /\
  acceptable_path "tool" /\
  (* starting *)
  start_answer (snd (wstart FromLocal)) = Some NotFound /\ start_answer (snd (wstart (FromRoot "{}"))) = Some Encoding /\
  start_answer (snd (wstart (FromRoot wfile))) = None.
Proof.
  split.
  { exists (tuf_of_root jroot), wops. split; [|reflexivity]. right. exists wfile. vm_compute. reflexivity. }
  split; [apply driven|].
  assert (P : acceptable_path "tool") by (apply (proj1 (path_new_iff "tool" "tool")); reflexivity).
  repeat match goal with |- _ /\ _ => split end; try exact P; vm_compute; reflexivity.
Qed.
