(** * C107: stores that fail *)
From Coq Require Import String List NArith ZArith Bool Lia.
From Verif Require Import Base BaseFacts Metadata Verify Paths Tuf SpecTuf TufProofs Reader SpecReader ReaderProofs Repo Client SpecClient SpecRestart
     ClientLogic ClientProofs Toy ClientToy Props_Client Props_Restart SpecStores StoresProofs.
Import ListNotations.
Open Scope string_scope.
Open Scope list_scope.

(** The full statement, that after a store has failed the next successful update makes up
    for it, is false (see below).  What an update does, wherever it is and also if it is
    dropped: as soon as metadata have become trusted it hands the document over to the
    local repository, once, and a root also under its number; it stores nothing else; a
    store that fails is the last thing it does, and its error the result. *)
Theorem C107_stores_partial :
  forall (E : env) (cfg : config) (fuel : nat) (t : tuf) (tr : list event) (q : prog (tuf * result bool)),
  exec (update E cfg fuel t) tr q ->
  (forall pre e post, tr = pre ++ e :: post -> stores_in_order t pre e) /\
  (forall t' r, q = Ret (t', r) ->
     (forall path v, ~ to_store t tr path v) /\
     (forall pre path v raw er, tr = pre ++ [EvStoreMeta path v raw (Err er)] -> r = Err er)).
Proof.
  intros E cfg fuel t tr q X.
  assert (R : along (rely (DS t)) [] tr) by (intros pre e post _; exact I).
  destruct (wp_sound (DS t) _ _ _ X _ [] (wp_stores_update E cfg t fuel t [] (calm_nil t) eq_refl) R) as [G W].
  split; [intros pre e post Q; exact (G pre e post Q)|]. intros t' r ->. cbn [wp app] in W. destruct W as (_ & D & F).
  split; [exact D|]. cbn [snd] in F. intros pre path v raw er Q. destruct r as [b|e]; [now apply F in Q|].
  rewrite (F _ _ _ _ _ Q). reflexivity.
Qed.
Print Assumptions C107_stores_partial.

(** So an update that succeeds has had no store fail. *)
Theorem C107_success_stores :
  forall (E : env) (cfg : config) (fuel : nat) (t t' : tuf) (tr : list event) (b : bool),
  exec (update E cfg fuel t) tr (Ret (t', Ok b)) ->
  forall path v raw ans, In (EvStoreMeta path v raw ans) tr -> ans = Ok tt.
Proof.
  intros E cfg fuel t t' tr b X path v raw ans I. destruct (C107_stores_partial _ _ _ _ _ _ X) as [G R].
  destruct (R _ _ eq_refl) as [_ F]. apply in_split in I as (pre & post & ->). destruct ans as [[]|er]; [reflexivity|].
  destruct post as [|e post]; [now specialize (F pre path v raw er eq_refl)|].
  destruct (G (pre ++ [EvStoreMeta path v raw (Err er)]) e post) as [N _]; [now rewrite <- app_assoc|].
  now elim (N pre path v raw er).
Qed.
Print Assumptions C107_success_stores.

(** ** A store that failed is not made up for *)

(** A repository one step further. *)
Definition remote2 : ephemeral :=
  mkEphemeral [(("root", VNumber 1), "root1"); (("root", VNumber 2), "root2"); (("timestamp", VNone), "ts2");
               (("snapshot", VNone), "snap2"); (("targets", VNone), "targets1")] [].
(** The second update, up to where it stores the timestamp. *)
Definition second := drive 5 local_updated remote2 c50 (update Ec default_config 9 t_updated).
Definition t_second : tuf := tuf_after t_updated (fst (fst second)).
Definition full : error := Opaque.
(** The store fails; the next update gets the rest. *)
Definition third := drive 50 local_updated remote2 c50 (update Ec default_config 9 t_second).
Definition t_third : tuf := fst (result_of third (t_second, Err NotFound)).
(** A restart, and an update from a mirror that has been left behind. *)
Definition fourth := drive 50 (snd (fst third)) remote1 c50 (construct Ec default_config 9 (FromRoot "root1")).
Definition t_fourth : tuf := match result_of fourth (Err NotFound) with Ok t => t | Err _ => t_started end.
Definition fifth := drive 50 (snd (fst fourth)) remote1 c50 (update Ec default_config 9 t_fourth).
Definition t_fifth : tuf := fst (result_of fifth (t_fourth, Err NotFound)).

Lemma in_memory_unreliable e tr e' : in_memory e tr e' -> unreliable e tr e'.
Proof. induction 1; [constructor|]. now apply unreliable_works with e'. Qed.
Lemma unreliable_app e tr e' : unreliable e tr e' -> forall tr' e'', unreliable e' tr' e'' -> unreliable e (tr ++ tr') e''.
Proof. induction 1; intros tr' x H'; cbn; auto; [eapply unreliable_works; eauto|]. apply unreliable_fails. auto. Qed.

Definition failed_store : event := EvStoreMeta "timestamp" VNone "ts2" (Err full).

Definition storing {A} (p : prog A) : option (string * meta_version * bytes) :=
  match p with StoreMeta path v b _ => Some (path, v, b) | _ => None end.
Definition fail_store {A} (p : prog A) (er : error) : prog A :=
  match p with StoreMeta path v b k => k (Err er) | _ => p end.
Lemma exec_fail_store {A} (p : prog A) path v b er : storing p = Some (path, v, b) ->
  exec p [EvStoreMeta path v b (Err er)] (fail_store p er).
Proof. destruct p; cbn; try discriminate. intros Q. inversion Q; subst. apply exec_store_meta. constructor. Qed.

Lemma second_run : exec (update Ec default_config 9 t_updated) (fst (fst second) ++ [failed_store]) (Ret (t_second, Err full)).
Proof.
  assert (S : storing (snd second) = Some ("timestamp", VNone, "ts2")) by (vm_compute; reflexivity).
  assert (F : fail_store (snd second) full = Ret (t_second, Err full)) by (vm_compute; reflexivity).
  apply (exec_fail_store _ _ _ _ full) in S. rewrite F in S.
  exact (exec_app _ _ _ (proj1 (drive_run _ _ _ _ _ _ eq_refl)) _ _ S).
Qed.

(** One failed store of a timestamp.  That update reports it, the next one succeeds, the
    client trusts version 2 of timestamp and snapshot; but the local repository keeps
    version 1 of the timestamp, a restart before anything expires comes back with it and
    without the snapshot, and an update from an old mirror then goes through with version 1
    of both. *)
Theorem C107_made_up_for_refuted :
  exists E cfg fuel raw tr0 ta e0 tr1 tb e1 er tr2 tc e2 b tr3 td e3 tr4 te e4,
    sessions in_memory E cfg fuel raw ephemeral_new tr0 ta e0 /\
    exec (update E cfg fuel ta) tr1 (Ret (tb, Err er)) /\ unreliable e0 tr1 e1 /\
    exec (update E cfg fuel tb) tr2 (Ret (tc, Ok b)) /\ in_memory e1 tr2 e2 /\
    exec (construct E cfg fuel (FromRoot raw)) tr3 (Ret (Ok td)) /\ in_memory e2 tr3 e3 /\
    (forall c, In (EvNow c) tr3 -> before_expiry tc c) /\
    exec (update E cfg fuel td) tr4 (Ret (te, Ok true)) /\ in_memory e3 tr4 e4 /\
    t_root td = t_root tc /\ t_snapshot td = None /\
    timestamp_version tc = 2%N /\ snapshot_version tc = 2%N /\ timestamp_version td = 1%N /\
    timestamp_version te = 1%N /\ snapshot_version te = 1%N /\
    length (filter (fun e => match e with EvStoreMeta _ _ _ (Err _) => true | _ => false end) tr1) = 1%nat.
Proof.
  destruct updated_ok as (E1 & E2 & _). destruct (drive_run _ _ _ _ _ _ E1) as [X1 Y1].
  destruct (drive_run _ _ _ _ _ _ E2) as [X2 Y2].
  assert (Y3 : in_memory local_updated (fst (fst second)) (snd (fst second))) by exact (proj2 (drive_run _ _ _ _ _ _ eq_refl)).
  assert (Q3 : snd (fst second) = local_updated) by (vm_compute; reflexivity). rewrite Q3 in Y3.
  assert (E4 : snd third = Ret (t_third, Ok true)) by (vm_compute; reflexivity). destruct (drive_run _ _ _ _ _ _ E4) as [X4 Y4].
  assert (E5 : snd fourth = Ret (Ok t_fourth)) by (vm_compute; reflexivity). destruct (drive_run _ _ _ _ _ _ E5) as [X5 Y5].
  assert (E6 : snd fifth = Ret (t_fifth, Ok true)) by (vm_compute; reflexivity). destruct (drive_run _ _ _ _ _ _ E6) as [X6 Y6].
  exists Ec, default_config, 9%nat, "root1", (fst (fst started) ++ fst (fst updated)), t_updated, local_updated,
    (fst (fst second) ++ [failed_store]), t_second, local_updated, full,
    (fst (fst third)), t_third, (snd (fst third)), true,
    (fst (fst fourth)), t_fourth, (snd (fst fourth)), (fst (fst fifth)), t_fifth, (snd (fst fifth)).
  split. { eapply session_update; [|exact X2|exact Y2]. apply session_first; [exact X1|exact Y1]. }
  split; [exact second_run|].
  split. { apply (unreliable_app _ _ local_updated); [now apply in_memory_unreliable|]. apply unreliable_fails. constructor. }
  split; [exact X4|]. split; [exact Y4|]. split; [exact X5|]. split; [exact Y5|].
  split. { apply all_before_expiry with (c0 := c50).
    - intros n [<-|[<-|[<-|[<-|[<-|[]]]]]]; vm_compute; (split; [reflexivity|]);
           repeat split; intros x Q; inversion Q; reflexivity.
    - vm_compute. repeat constructor. }
  split; [exact X6|]. split; [exact Y6|].
  repeat (split; [vm_compute; reflexivity|]). vm_compute. reflexivity.
Qed.
Print Assumptions C107_made_up_for_refuted.

(** Updates that store, and one whose store fails. *)
Example C107_case :
  exec (update Ec default_config 9 t_started) (fst (fst updated)) (Ret (t_updated, Ok true)) /\
  to_store t_started (firstn 2 (fst (fst updated))) "root" VNone /\
  to_store t_started (firstn 3 (fst (fst updated))) "root" (VNumber 2) /\
  In (EvStoreMeta "root" VNone "root2" (Ok tt)) (fst (fst updated)) /\
  In (EvStoreMeta "targets" VNone "targets1" (Ok tt)) (fst (fst updated)) /\
  exec (update Ec default_config 9 t_updated) (fst (fst second) ++ [failed_store]) (Ret (t_second, Err full)).
Proof.
  destruct updated_ok as (_ & E2 & _). destruct (drive_run _ _ _ _ _ _ E2) as [X2 _]. split; [exact X2|].
  split. { apply (just_trusted _ _ (firstn 1 (fst (fst updated))) Root (mkTuf root2 None None None [])); [vm_compute; reflexivity|].
           vm_compute. discriminate. }
  split. { apply (root_number _ _ (firstn 1 (fst (fst updated))) (mkTuf root2 None None None []) "root2"). vm_compute. reflexivity. }
  split; [vm_compute; tauto|]. split; [vm_compute; tauto|]. exact second_run.
Qed.
