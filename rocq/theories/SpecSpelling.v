(** * Specification of what about a document matters: C113 *)
From Coq Require Import String List NArith ZArith Bool.
From Verif Require Import Base JsonValue SpecJson Metadata Verify Tuf Reader Repo Client.
Import ListNotations.

(** The same document, or the same value in another spelling: other white space, other
    escapes, other orders of the members of objects.  (No name stands twice in an object.) *)
Definition respelled (b b' : bytes) : Prop :=
  b = b' \/ exists j j', document b j /\ document b' j' /\ unique_names j /\ same_value j j'.

(** The same error, or documents that are the same but for the spelling. *)
Definition same_reading (r r' : result bytes) : Prop :=
  match r, r' with Ok b, Ok b' => respelled b b' | Err e, Err e' => e = e' | _, _ => False end.

(** What a client learns in one event: of metadata what has been read, whatever pieces it
    came in. *)
Inductive news :=
| Read (b : result bytes)
| Target (ans : result stream)
| Done (ans : result unit)
| Wrote (ans : option io_kind)
| Clock (c : clock).
Fixpoint learned (C : crypto) (tr : list event) : list news :=
  match tr with
  | [] => []
  | EvFetchMeta _ _ _ max hash ans :: tr => Read (read_metadata C max hash ans) :: learned C tr
  | EvStoreMeta _ _ _ ans :: tr => Done ans :: learned C tr
  | EvFetchTarget _ _ ans :: tr => Target ans :: learned C tr
  | EvStoreTarget _ _ ans :: tr => Done ans :: learned C tr
  | EvWrite _ ans :: tr => Wrote ans :: learned C tr
  | EvNow c :: tr => Clock c :: learned C tr
  | EvPut _ :: tr => learned C tr
  end.
Definition same_news (n n' : news) : Prop :=
  match n, n' with Read r, Read r' => same_reading r r' | Read _, _ | _, Read _ => False | _, _ => n = n' end.

(** The same requests and the same metadata trusted; what is stored is what has been read. *)
Definition same_act (e e' : event) : Prop :=
  match e, e' with
  | EvFetchMeta s p v max hash _, EvFetchMeta s' p' v' max' hash' _ => s = s' /\ p = p' /\ v = v' /\ max = max' /\ hash = hash'
  | EvStoreMeta p v b ans, EvStoreMeta p' v' b' ans' => p = p' /\ v = v' /\ respelled b b' /\ ans = ans'
  | EvFetchMeta _ _ _ _ _ _, _ | _, EvFetchMeta _ _ _ _ _ _ | EvStoreMeta _ _ _ _, _ | _, EvStoreMeta _ _ _ _ => False
  | _, _ => e = e'
  end.
(** Whenever both learn the same, they act the same and end the same. *)
Definition act_alike {A} (C : crypto) (p p' : prog A) : Prop :=
  forall tr tr' a a', exec p tr (Ret a) -> exec p' tr' (Ret a') -> Forall2 same_news (learned C tr) (learned C tr') ->
  Forall2 same_act tr tr' /\ a = a'.

(** The same call of a method of [Tuf] with another spelling. *)
Inductive respelled_call : op -> op -> Prop :=
| rc_root b b' : respelled b b' -> respelled_call (OpRoot b) (OpRoot b')
| rc_timestamp c b b' : respelled b b' -> respelled_call (OpTimestamp c b) (OpTimestamp c b')
| rc_snapshot c b b' : respelled b b' -> respelled_call (OpSnapshot c b) (OpSnapshot c b')
| rc_targets c b b' : respelled b b' -> respelled_call (OpTargets c b) (OpTargets c b')
| rc_delegation c p r b b' : respelled b b' -> respelled_call (OpDelegation c p r b) (OpDelegation c p r b').
Inductive respelled_start : ctor -> ctor -> Prop :=
| rs_same c : respelled_start c c
| rs_root b b' : respelled b b' -> respelled_start (FromRoot b) (FromRoot b').
