(** * C105: what a client is told decides what it does *)
From Coq Require Import String List NArith ZArith Bool Lia.
From Verif Require Import Base BaseFacts Metadata Verify Paths Tuf Reader Repo Client SpecClient ClientLogic Toy ClientToy Props_Client Props_Restart
     SpecDetermined DeterminedProofs.
Import ListNotations.
Open Scope string_scope.
Open Scope list_scope.

(** Two runs of the same constructor or method, in which the repositories, the writer and
    the clock answer alike, are the same: requests, what is stored, the metadata trusted
    in between, and the result.  The order of iteration over hash maps, which Rust leaves
    to chance, has no say in it. *)
Theorem C105_answers_decide :
  forall (E E' : env) (cfg : config) (fuel fuel' : nat), alike E E' ->
  (forall c, agree (construct E cfg fuel c) (construct E' cfg fuel' c)) /\
  (forall t, agree (update E cfg fuel t) (update E' cfg fuel' t)) /\
  (forall t target,
     agree (fetch_target_description E cfg fuel t target) (fetch_target_description E' cfg fuel' t target) /\
     agree (fetch_target E cfg fuel t target) (fetch_target E' cfg fuel' t target) /\
     agree (fetch_target_to_writer E cfg fuel t target) (fetch_target_to_writer E' cfg fuel' t target)).
Proof.
  intros E E' cfg fuel fuel' A.
  assert (L : fuel <= Nat.max fuel fuel') by lia. assert (L' : fuel' <= Nat.max fuel fuel') by lia.
  assert (A' : alike E' E') by (split; reflexivity).
  split; [|split].
  - intros c. exact (within_agree _ _ _ (w_construct E E' A cfg _ _ c L) (w_construct E' E' A' cfg _ _ c L')).
  - intros t. exact (within_agree _ _ _ (w_update E E' A cfg _ _ t L) (w_update E' E' A' cfg _ _ t L')).
  - intros t target. split; [|split].
    + exact (within_agree _ _ _ (w_description E E' A cfg _ _ t target L) (w_description E' E' A' cfg _ _ t target L')).
    + exact (within_agree _ _ _ (w_target E E' A cfg _ _ t target L) (w_target E' E' A' cfg _ _ t target L')).
    + exact (within_agree _ _ _ (w_writer E E' A cfg _ _ t target L) (w_writer E' E' A' cfg _ _ t target L')).
Qed.
Print Assumptions C105_answers_decide.

(** So whatever can happen to a client with one order can happen with any other, also if
    calls are dropped half-way; and the trusted metadata alone, without a client. *)
Theorem C105_order_is_invisible :
  forall (C : crypto) (I : interchange) (o o' : hash_order) (cfg : config) (fuel : nat) (c : ctor) (tr : list event) (t : tuf)
         (ops : list op) (p : op),
  (life (mkEnv C o I) cfg fuel c tr t <-> life (mkEnv C o' I) cfg fuel c tr t) /\
  run (mkEnv C o I) t ops = run (mkEnv C o' I) t ops /\ step (mkEnv C o I) t p = step (mkEnv C o' I) t p.
Proof.
  intros C I o o' cfg fuel c tr t ops p.
  assert (A : alike (mkEnv C o I) (mkEnv C o' I)) by (split; reflexivity).
  assert (A' : alike (mkEnv C o' I) (mkEnv C o I)) by (split; reflexivity).
  split; [|split; [apply alike_run; exact A|apply alike_step; exact A]].
  split; [apply (w_life _ _ A)|apply (w_life _ _ A')]; lia.
Qed.
Print Assumptions C105_order_is_invisible.

(** The bound on the rounds of loops that the model has and the code has not: a run that
    ends within one bound is a run with every larger one, too. *)
Theorem C105_bounds_are_invisible :
  forall (E : env) (cfg : config) (fuel fuel' : nat) (c : ctor) (t : tuf) (k : call) (tr : list event)
         (r : result tuf) (x : tuf * result unit),
  fuel <= fuel' ->
  (exec (construct E cfg fuel c) tr (Ret r) -> exec (construct E cfg fuel' c) tr (Ret r)) /\
  (exec (call_prog E cfg fuel t k) tr (Ret x) -> exec (call_prog E cfg fuel' t k) tr (Ret x)) /\
  (exec (call_prog E cfg fuel t k) tr Panic -> exec (call_prog E cfg fuel' t k) tr Panic) /\
  (life E cfg fuel c tr t -> life E cfg fuel' c tr t).
Proof.
  intros E cfg fuel fuel' c t k tr r x L. assert (A : alike E E) by (split; reflexivity).
  split; [exact (within_run _ _ _ _ (w_construct E E A cfg _ _ c L))|].
  split; [exact (within_run _ _ _ _ (w_call E E A cfg _ _ t k L))|].
  split; [|exact (w_life E E A cfg _ _ c tr t L)].
  intros X. destruct (within_exec _ _ _ _ (w_call E E A cfg _ _ t k L) X) as (q' & X' & W). inversion W; subst. exact X'.
Qed.
Print Assumptions C105_bounds_are_invisible.

(** The update of the other examples, with hash maps read backwards and another bound. *)
Definition Ec_back : env := mkEnv (e_crypto Ec) rev_order (e_ic Ec).
Definition updated_back := drive 50 (snd (fst started)) remote1 c50 (update Ec_back default_config 20 t_started).

Example C105_case :
  alike Ec Ec_back /\ (exists l, ho_fun (e_order Ec) l <> ho_fun (e_order Ec_back) l) /\
  exec (update Ec default_config 9 t_started) (fst (fst updated)) (Ret (t_updated, Ok true)) /\
  exec (update Ec_back default_config 20 t_started) (fst (fst updated_back)) (Ret (t_updated, Ok true)) /\
  inputs (fst (fst updated)) = inputs (fst (fst updated_back)) /\ length (inputs (fst (fst updated))) = 14%nat.
Proof.
  split; [split; reflexivity|]. split. { exists [("a", mkSig "a" "x"); ("b", mkSig "b" "y")]. discriminate. }
  destruct updated_ok as (_ & E2 & _). destruct (drive_run _ _ _ _ _ _ E2) as [X2 _]. split; [exact X2|].
  assert (E3 : snd updated_back = Ret (t_updated, Ok true)) by (vm_compute; reflexivity).
  destruct (drive_run _ _ _ _ _ _ E3) as [X3 _]. split; [exact X3|].
  split; vm_compute; reflexivity.
Qed.
