(** * C106: each method touches only what it is for *)
From Coq Require Import String List NArith ZArith Bool Lia.
From Verif Require Import Base BaseFacts Metadata Verify Paths Tuf Reader Repo Client SpecClient ClientLogic Toy ClientToy Props_Client Props_Restart
     SpecFootprint FootprintProofs.
Import ListNotations.
Open Scope string_scope.
Open Scope list_scope.

(** Making a client from a root, or from the root in the local repository, does not talk
    to the remote repository and stores nothing; made from keys, it asks for one version
    of the root, locally and remotely, and stores nothing but a root.  In any case and
    also if it is dropped half-way. *)
Theorem C106_making_a_client :
  forall (E : env) (cfg : config) (fuel : nat) (c : ctor) (tr : list event) (q : prog (result tuf)),
  exec (construct E cfg fuel c) tr q ->
  match c with
  | FromLocal | FromRoot _ => Forall reads_local tr
  | FromKeys v _ _ => exists tr1 tr2, tr = tr1 ++ tr2 /\ Forall (first_root v) tr1 /\ Forall reads_local tr2
  end.
Proof.
  intros E cfg fuel [|raw|v th keys] tr q X; cbn [construct] in X.
  - exact (proj1 (only_exec _ _ _ _ _ X (only_from_local E cfg fuel))).
  - exact (proj1 (only_exec _ _ _ _ _ X (only_from_root E cfg fuel raw))).
  - exact (exec_from_keys _ _ _ _ _ _ _ _ X).
Qed.
Print Assumptions C106_making_a_client.

(** An update asks the remote repository for top-level metadata and stores top-level
    metadata; it never reads the local repository, and neither fetches nor stores targets
    or delegated metadata. *)
Theorem C106_update :
  forall (E : env) (cfg : config) (fuel : nat) (t : tuf) (tr : list event) (q : prog (tuf * result bool)),
  exec (update E cfg fuel t) tr q -> Forall updates tr.
Proof. intros E cfg fuel t tr q X. exact (proj1 (only_exec _ _ _ _ _ X (only_update E cfg fuel t))). Qed.
Print Assumptions C106_update.

(** Looking for a target never changes the trusted root, timestamp, snapshot or top-level
    targets, asks for nothing without a length and a hash, and stores neither roots nor
    snapshots. *)
Theorem C106_looking_for_a_target :
  forall (E : env) (cfg : config) (fuel : nat) (t : tuf) (target : string) (tr : list event) (q : prog (tuf * result target_desc)),
  exec (fetch_target_description E cfg fuel t target) tr q ->
  Forall (searches t) tr /\ forall t' r, q = Ret (t', r) -> same_top t t'.
Proof.
  intros E cfg fuel t target tr q X. destruct (only_exec _ _ _ _ _ X (only_description E cfg t fuel target)) as [F O].
  split; [exact F|]. intros t' r ->. inversion O as [? T| | | | | | | | |]; subst. exact T.
Qed.
Print Assumptions C106_looking_for_a_target.

(** A download looks for the target and then asks for at most one file, once; it stores
    at most one target, under the name it was asked for. *)
Theorem C106_download :
  forall (E : env) (cfg : config) (fuel : nat) (t : tuf) (target : string) (tr : list event) (q : prog (tuf * result unit)),
  exec (fetch_target E cfg fuel t target) tr q ->
  exists tr1 tr2, tr = tr1 ++ tr2 /\ Forall (searches t) tr1 /\ one_target target tr2 /\
    forall t' r, q = Ret (t', r) -> same_top t t'.
Proof.
  intros E cfg fuel t target tr q X. apply exec_download in X as (tr1 & tr2 & -> & F & O & T). exists tr1, tr2.
  repeat (split; [assumption || reflexivity|]). intros t' r Q. exact (T _ Q).
Qed.
Print Assumptions C106_download.

(** With a writer, what comes after the one request is written to it and goes nowhere else. *)
Theorem C106_download_to_writer :
  forall (E : env) (cfg : config) (fuel : nat) (t : tuf) (target : string) (tr : list event) (q : prog (tuf * result unit)),
  exec (fetch_target_to_writer E cfg fuel t target) tr q ->
  exists tr1 tr2, tr = tr1 ++ tr2 /\ Forall (searches t) tr1 /\ one_written tr2 /\
    forall t' r, q = Ret (t', r) -> same_top t t'.
Proof.
  intros E cfg fuel t target tr q X. apply exec_to_writer in X as (tr1 & tr2 & -> & F & O & T). exists tr1, tr2.
  repeat (split; [assumption || reflexivity|]). intros t' r Q. exact (T _ Q).
Qed.
Print Assumptions C106_download_to_writer.

(** ** Runs that do all of this *)

Definition label (e : event) : string :=
  match e with
  | EvFetchMeta Local path _ _ _ _ => "local " ++ path
  | EvFetchMeta Remote path _ _ _ _ => "remote " ++ path
  | EvStoreMeta path VNone _ _ => "store " ++ path
  | EvStoreMeta path _ _ _ => "store numbered " ++ path
  | EvFetchTarget path _ _ => "remote target " ++ path
  | EvStoreTarget path _ _ => "store target " ++ path
  | EvWrite _ _ => "write"
  | EvNow _ => "now"
  | EvPut _ => "put"
  end.
Definition labels {A} (x : list event * ephemeral * prog A) : list string := map label (fst (fst x)).

Definition from_keys :=
  drive 50 ephemeral_new remote1 c50 (construct Ec default_config 9 (FromKeys (VNumber 1) 2 [toy_key "kr1"; toy_key "kr2"])).
Definition download := drive 50 local_updated remote1 c50 (fetch_target Ec default_config 9 t_updated "top").
Definition to_writer := drive 50 local_updated remote1 c50 (fetch_target_to_writer Ec default_config 9 t_updated "top").

Example C106_case :
  exec (construct Ec default_config 9 (FromKeys (VNumber 1) 2 [toy_key "kr1"; toy_key "kr2"])) (fst (fst from_keys)) (snd from_keys) /\
  labels from_keys =
    ["local root"; "remote root"; "put"; "store numbered root"; "local root"; "now"; "local timestamp"] /\
  exec (construct Ec default_config 9 (FromRoot "root1")) (fst (fst restart_again)) (snd restart_again) /\
  labels restart_again =
    ["put"; "local root"; "put"; "local root"; "now"; "local timestamp"; "now"; "put"; "local snapshot"; "now"; "put";
     "local targets"; "now"; "put"] /\
  exec (update Ec default_config 9 t_started) (fst (fst updated)) (snd updated) /\
  labels updated =
    ["remote root"; "put"; "store root"; "store numbered root"; "remote root"; "now"; "remote timestamp"; "now"; "put";
     "store timestamp"; "remote snapshot"; "now"; "put"; "store snapshot"; "remote targets"; "now"; "put"; "store targets"] /\
  exec (call_prog Ec default_config 9 t_again' (CallDescription "a/x")) (fst (fst look)) (snd look) /\
  labels look = ["local alice"; "remote alice"; "now"; "put"; "store alice"] /\
  exec (fetch_target Ec default_config 9 t_updated "top") (fst (fst download)) (snd download) /\
  labels download = ["remote target top"; "store target top"] /\
  exec (fetch_target_to_writer Ec default_config 9 t_updated "top") (fst (fst to_writer)) (snd to_writer) /\
  labels to_writer = ["remote target top"; "write"].
Proof.
  split; [exact (proj1 (drive_run _ _ _ _ _ _ eq_refl))|]. split; [vm_compute; reflexivity|].
  split; [exact (proj1 (drive_run _ _ _ _ _ _ eq_refl))|]. split; [vm_compute; reflexivity|].
  split; [exact (proj1 (drive_run _ _ _ _ _ _ eq_refl))|]. split; [vm_compute; reflexivity|].
  split; [exact (proj1 (drive_run _ _ _ _ _ _ eq_refl))|]. split; [vm_compute; reflexivity|].
  split; [exact (proj1 (drive_run _ _ _ _ _ _ eq_refl))|]. split; [vm_compute; reflexivity|].
  split; [exact (proj1 (drive_run _ _ _ _ _ _ eq_refl))|]. vm_compute; reflexivity.
Qed.
