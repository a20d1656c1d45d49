(** * Specification of repositories that change while clients update: C96

    A repository goes through a series of publications, [P 0], [P 1], ...; every request
    is answered at some time, and time does not go back. *)
From Coq Require Import String List Arith NArith ZArith Bool.
From Verif Require Import Base Metadata Paths Tuf SpecVerify SpecTuf Reader SpecReader Repo Client SpecClient SpecHonest.
Import ListNotations.
Open Scope string_scope.
Open Scope list_scope.
Open Scope nat_scope.

(** The roots of one publication and the other documents of another. *)
Definition mixed (p p' : publication) : publication :=
  mkPublication (pb_roots p) (pb_root p) (pb_timestamp p') (pb_ts p') (pb_snapshot p') (pb_sn p') (pb_targets p') (pb_tg p').

(** The series is in order from time [from] to time [upto]: roots are added only; each
    publication is in order, also under the roots that were there before (for instance since
    the roots do not change, or the new ones keep the keys of the other roles); and all
    snapshots are consistent ones. *)
Record series (E : env) (cfg : config) (P : nat -> publication) (from upto : nat) : Prop := {
  se_roots : forall i j, from <= i -> i <= j -> j <= upto -> exists more, pb_roots (P j) = pb_roots (P i) ++ more;
  se_in_order : forall i j, from <= i -> i <= j -> j <= upto -> in_order E cfg (mixed (P i) (P j));
  se_consistent : forall i, from <= i -> i <= upto -> rm_consistent (pb_root (P i)) = true
}.

(** What is offered at time [i]: the roots and the timestamp of that time; snapshots and
    targets metadata with numbers are kept. *)
Definition offers_at (P : nat -> publication) (from i : nat) (path : string) (v : meta_version) (ans : result stream) : Prop :=
  (forall n, path = "root" -> v = VNumber n ->
     (exists raw r, In (raw, r) (pb_roots (P i)) /\ rm_version r = n /\ answered ans raw) \/
     ((forall raw r, In (raw, r) (pb_roots (P i)) -> rm_version r <> n) /\ ans = Err NotFound)) /\
  (path = "timestamp" -> v = VNone -> answered ans (pb_timestamp (P i))) /\
  (forall j, from <= j -> j <= i -> path = "snapshot" -> v = VNumber (sm_version (pb_sn (P j))) -> answered ans (pb_snapshot (P j))) /\
  (forall j, from <= j -> j <= i -> path = "targets" -> v = VNumber (tg_version (pb_tg (P j))) -> answered ans (pb_targets (P j))).

(** One event at time [i]; the local repository stores what it is given. *)
Definition event_at (P : nat -> publication) (from i : nat) (e : event) : Prop :=
  match e with
  | EvFetchMeta Remote path v _ _ ans => offers_at P from i path v ans
  | EvStoreMeta _ _ _ ans => ans = Ok tt
  | _ => True
  end.

(** The events of a run that begins at time [i] and is observed until time [k]: each
    happens at some time, and [ok] says what may happen then. *)
Inductive timed (ok : nat -> event -> Prop) : nat -> list event -> nat -> Prop :=
| timed_nil i : timed ok i [] i
| timed_wait i tr k : timed ok (S i) tr k -> timed ok i tr k
| timed_event i e tr k : ok i e -> timed ok i tr k -> timed ok i (e :: tr) k.
Definition during (P : nat -> publication) (from : nat) : nat -> list event -> nat -> Prop := timed (event_at P from).
