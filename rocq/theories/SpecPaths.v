(** * Specification of paths, with concatenation of strings only *)
From Coq Require Import String Ascii List NArith Bool.
From Verif Require Import Base StringFacts.
Import ListNotations.
Open Scope string_scope.

(** [x] is one of the pieces between slashes. *)
Definition component (s x : string) : Prop :=
  ~ has_char "/" x /\
  exists pre post, s = pre ++ x ++ post /\
    (pre = "" \/ exists a, pre = a ++ "/") /\ (post = "" \/ exists b, post = "/" ++ b).

(** Control characters and the quote, star, colon, less, greater, question mark, backslash, bar. *)
Definition forbidden (c : ascii) : Prop :=
  let n := N_of_ascii c in
  (n < 32)%N \/ n = 127%N \/ In n [34; 42; 58; 60; 62; 63; 92; 124]%N.

(** What the constructors of paths accept. *)
Definition acceptable_path (s : string) : Prop :=
  s <> "" /\ (forall b, s <> "/" ++ b) /\ (forall c, has_char c s -> ~ forbidden c) /\
  ~ component s "." /\ ~ component s "..".

(** [q] lies below directory [p], or is [p] itself. *)
Definition child_of (q p : string) : Prop := (exists a, p = a ++ "/") /\ exists b, q = p ++ b.
Definition below (q p : string) : Prop := q = p \/ child_of q p.

(** A descending selection of one path per group, ending above [target]. *)
Inductive descends (target : string) : string -> list (list string) -> Prop :=
| descends_last p : below target p -> descends target p []
| descends_next p q g rest : In q g -> below q p -> descends target q rest -> descends target p (g :: rest).
Definition in_chain (target : string) (groups : list (list string)) : Prop :=
  exists p g rest, groups = g :: rest /\ In p g /\ descends target p rest.

(** Walking from directory [cwd] (innermost name first) along components, as the
    operating system resolves them. *)
Fixpoint walk (cwd comps : list string) : list string :=
  match comps with
  | [] => cwd
  | c :: r =>
      walk (if String.eqb c "" || String.eqb c "." then cwd
            else if String.eqb c ".." then tl cwd else c :: cwd) r
  end.
