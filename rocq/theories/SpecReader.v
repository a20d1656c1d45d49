(** * Specification of checked reads *)
From Coq Require Import String List NArith Bool.
From Verif Require Import Base Metadata Reader.
Import ListNotations.
Open Scope string_scope.

(** The bytes handed out by a sequence of answers. *)
Fixpoint delivered (rs : list reply) : bytes :=
  match rs with
  | [] => ""
  | Ready d :: rest => d ++ delivered rest
  | _ :: rest => delivered rest
  end.

(** Neither an error nor an end of stream. *)
Definition going_on (r : reply) : Prop := r = Pending \/ exists d, d <> "" /\ r = Ready d.
Definition underway (rs : list reply) : Prop := Forall going_on rs.

(** The data meet the demanded hash. *)
Definition hash_ok (C : crypto) (hash : option (hash_alg * bytes)) (data : bytes) : Prop :=
  match hash with None => True | Some (alg, v) => ring_digest C alg data = v end.

Definition length_ok (max : N) (data : bytes) : Prop := (N.of_nat (String.length data) <= max)%N.

(** What a stream contains: the bytes before its end or its first failure. *)
Inductive contains : stream -> bytes -> option io_kind -> Prop :=
| contains_end : contains [] "" None
| contains_zero rest : contains (Ready "" :: rest) "" None
| contains_fail k rest : contains (Failed k :: rest) "" (Some k)
| contains_pending rest b e : contains rest b e -> contains (Pending :: rest) b e
| contains_data d rest b e : d <> "" -> contains rest b e -> contains (Ready d :: rest) (d ++ b) e.
