(** * Specification of writing to an arbitrary writer: C101 *)
From Coq Require Import String List NArith Bool.
From Verif Require Import Base Reader Copy.
Import ListNotations.
Open Scope string_scope.
Open Scope list_scope.
Open Scope N_scope.

(** The first [n] bytes. *)
Fixpoint first_bytes (n : nat) (b : bytes) : bytes :=
  match n, b with
  | S n, String c b => String c (first_bytes n b)
  | _, _ => ""
  end.

(** What the writer has accepted, in this order. *)
Fixpoint taken (evs : list wevent) : bytes :=
  match evs with
  | [] => ""
  | Wrote b (Took n) :: rest => first_bytes n b ++ taken rest
  | _ :: rest => taken rest
  end.

(** The writer never claims to have taken more than it was offered, as [poll_write] must not. *)
Definition within (e : wevent) : Prop :=
  match e with Wrote b (Took n) => (n <= String.length b)%nat | _ => True end.
(** It does not make a flush wait. *)
Definition prompt (e : wevent) : Prop := e <> Flush WPending.
Definition no_flush (e : wevent) : Prop := forall w, e <> Flush w.

(** The writer is the reason for an error. *)
Definition write_failed (evs : list wevent) (k : io_kind) : Prop :=
  exists pre b w, evs = pre ++ [Wrote b w] /\ (w = WFailed k \/ w = Took 0 /\ k = IoOther).
Definition flush_failed (evs : list wevent) (k : io_kind) : Prop :=
  exists pre, evs = pre ++ [Flush (WFailed k)].

(** The length of what a reader delivers before it fails, also after an end that it reported. *)
Fixpoint deliverable (rs : stream) : N :=
  match rs with
  | [] => 0
  | Failed _ :: _ => 0
  | Pending :: rest => deliverable rest
  | Ready d :: rest => byte_length d + deliverable rest
  end.
