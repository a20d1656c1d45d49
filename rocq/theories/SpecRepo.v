(** * Specification of repositories *)
From Coq Require Import String Ascii List NArith Bool.
From Verif Require Import Base Metadata Paths Reader SpecReader Repo StringFacts.
Import ListNotations.
Open Scope string_scope.
Open Scope list_scope.
Open Scope N_scope.

(** ** In-memory repository: the last store whose input did not fail counts. *)

Definition complete (rs : stream) (b : bytes) : Prop := contains rs b None.
Definition broken (rs : stream) : Prop := forall b, ~ complete rs b.

Definition last_metadata (ops : list ephemeral_op) (path : string) (v : meta_version) (b : bytes) : Prop :=
  exists pre rs post, ops = pre ++ EpMetadata path v rs :: post /\ complete rs b /\
    forall rs', In (EpMetadata path v rs') post -> broken rs'.
Definition no_metadata (ops : list ephemeral_op) (path : string) (v : meta_version) : Prop :=
  forall rs, In (EpMetadata path v rs) ops -> broken rs.
Definition last_target (ops : list ephemeral_op) (path : string) (b : bytes) : Prop :=
  exists pre rs post, ops = pre ++ EpTarget path rs :: post /\ complete rs b /\
    forall rs', In (EpTarget path rs') post -> broken rs'.
Definition no_target (ops : list ephemeral_op) (path : string) : Prop :=
  forall rs, In (EpTarget path rs) ops -> broken rs.

(** ** File system *)

(** Every name leads to an inode. *)
Definition fs_wf (f : fs) : Prop :=
  forall name i, lookup name (fs_names f) = Some i -> exists b, lookup i (fs_inodes f) = Some b.

(** A name no temporary file can have. *)
Definition ordinary (name : file_name) : Prop := forall n d, name = n :: d -> ~ temp_name n.

(** Some stores, not yet begun: destination and input of each. *)
Definition begin_stores (jobs : list (file_name * stream)) : list (file_name * store_state) :=
  map (fun j => (fst j, StStart (snd j))) jobs.

(** ** URLs as a server reads them *)

Definition hex_value (c : ascii) : option N :=
  let n := N_of_ascii c in
  if in_range n 48 57 then Some (n - 48)
  else if in_range n 65 70 then Some (n - 55)
  else if in_range n 97 102 then Some (n - 87)
  else None.

(** Percent-decoding. *)
Fixpoint url_decode (s : string) : string :=
  match s with
  | EmptyString => ""
  | String c r =>
      match r with
      | String a (String b r') =>
          if Ascii.eqb c "%" then
            match hex_value a, hex_value b with
            | Some x, Some y => String (ascii_of_N (16 * x + y)) (url_decode r')
            | _, _ => String c (url_decode r)
            end
          else String c (url_decode r)
      | _ => String c (url_decode r)
      end
  end.

(** A path and a query as they occur in a valid URI. *)
Definition uri_ok (path : string) (query : option string) : Prop :=
  all_chars uri_path_char path = true /\ forall q, query = Some q -> all_chars uri_query_char q = true.
