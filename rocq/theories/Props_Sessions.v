(** * C89: no rollback across restarts *)
From Coq Require Import String Ascii List NArith ZArith Bool Lia.
From Verif Require Import Base BaseFacts Metadata Verify Paths SpecPaths PathProofs Tuf SpecVerify SpecTuf TufProofs TufHistory
     Reader SpecReader ReaderProofs Repo Http SpecHttp Files SpecFiles FilesProofs Props_Files
     Client SpecClient SpecRestart SpecCache ClientLogic ClientProofs ClientUpdates ClientHistory
     ClientRestart Toy ClientToy CacheProofs Props_Client Props_Restart Props_Cache AttackProofs.
Import ListNotations.
Open Scope string_scope.
Open Scope list_scope.
Open Scope N_scope.

(** What is left of the trusted metadata [t] after a restart with events [tr] and outcome
    [q]: the root and the timestamp, so that whatever the new client is told afterwards, it
    does not go back behind the root, nor (as long as the root stays) behind the timestamp. *)
Definition carried_over (E : env) (cfg : config) (fuel : nat) (raw : bytes) (t : tuf) (tr : list event) (q : prog (result tuf)) : Prop :=
  q <> Panic /\
  forall r, q = Ret r -> exists t3, r = Ok t3 /\
    t_root t3 = t_root t /\ (t_timestamp t <> None -> t_timestamp t3 = t_timestamp t) /\
    forall tr4 t4, history E cfg fuel (FromRoot raw) (tr ++ tr4) -> trusted_at (tr ++ tr4) = Some t4 ->
      rm_version (t_root t) <= rm_version (t_root t4) /\
      (rm_version (t_root t4) = rm_version (t_root t) -> timestamp_version t <= timestamp_version t4).

Lemma carried E cfg fuel raw t tr q : exec (construct E cfg fuel (FromRoot raw)) tr q ->
  (q <> Panic /\ forall r, q = Ret r -> exists t3, r = Ok t3 /\ t_root t3 = t_root t /\
    (t_timestamp t <> None -> t_timestamp t3 = t_timestamp t)) -> carried_over E cfg fuel raw t tr q.
Proof.
  intros X [H1 H2]. split; [exact H1|]. intros r ->. destruct (H2 r eq_refl) as (t3 & -> & R & Ts). exists t3.
  split; [reflexivity|]. split; [exact R|]. split; [exact Ts|]. intros tr4 t4 Hi T4.
  destruct (C43_the_field_is_tracked E cfg fuel (FromRoot raw) tr t3 (life_new _ _ _ _ _ _ X)) as [T3 _].
  apply history_sound in Hi. destruct (sound_between _ _ _ _ _ _ _ Hi T3 T4) as (ops & ->).
  rewrite <- R. split; [apply run_root_version|]. intros V. apply run_timestamp_version in V.
  destruct (t_timestamp t) as [ts|] eqn:Q.
  - specialize (Ts ltac:(discriminate)). unfold timestamp_version at 1 in V. unfold timestamp_version at 1. now rewrite Q, <- Ts.
  - unfold timestamp_version at 1. rewrite Q. apply N.le_0_l.
Qed.

(** After any sessions, however their updates went, a client made from the same root and
    the same local repository takes the root and the timestamp over.  What is assumed
    beyond the full statement:
    - the local repository is in memory (in a directory, below); no root after the first
      is there in the beginning;
    - futures of [update] are not dropped;
    - nobody delegates to roles named "timestamp" or "targets";
    - the root is not the last possible one;
    - neither the root nor the timestamp has expired at the restart. *)
Theorem C89_no_rollback_across_restarts_partial :
  forall (E : env) (cfg : config) (fuel fuel' : nat) (raw : bytes) (t0 : tuf) (e0 : ephemeral)
         (tr : list event) (t : tuf) (e : ephemeral)
         (tr3 : list event) (q : prog (result tuf)) (e3 : ephemeral),
  from_trusted_root E raw = Ok t0 ->
  (forall n, rm_version (t_root t0) < n -> lookup ("root", VNumber n) (ep_metadata e0) = None) ->
  sessions in_memory E cfg fuel raw e0 tr t e ->
  no_role_named "timestamp" tr -> no_role_named "targets" tr ->
  rm_version (t_root t) < u32_max ->
  exec (construct E cfg fuel' (FromRoot raw)) tr3 q -> in_memory e tr3 e3 ->
  (forall c, In (EvNow c) tr3 -> in_time t c) ->
  carried_over E cfg fuel' raw t tr3 q.
Proof.
  intros E cfg fuel fuel' raw t0 e0 tr t e tr3 q e3 F Top Se N1 N2 Sm X3 Y3 B. apply (carried _ _ _ _ _ _ _ X3).
  refine (restart_keeps ephemeral in_memory (fun n => n <> "timestamp" /\ n <> "targets")
            (fun e m => ep_metadata e = m) (fun n H => H) _ E cfg fuel fuel' raw t0 _ e0 tr t e tr3 q e3
            F eq_refl Top Se (no_role_every _ N1 N2) Sm X3 Y3 B).
  intros m0 s tr' s' h R M _. exact (in_memory_mem _ _ _ R m0 h M).
Qed.
Print Assumptions C89_no_rollback_across_restarts_partial.

Theorem C89_no_rollback_with_a_directory_partial :
  forall (E : env) (cfg : config) (fuel fuel' : nat) (raw : bytes) (t0 : tuf)
         (d d0 : disk) (local : file_name) (r : fs_repo)
         (tr : list event) (t : tuf) (d1 : disk)
         (tr3 : list event) (q : prog (result tuf)) (d3 : disk),
  from_trusted_root E raw = Ok t0 ->
  sound_disk d ->
  (forall f, cache_file f -> ~ directory d (f :: "metadata" :: local)) ->
  (forall n, rm_version (t_root t0) < n -> content d (file_of (VNumber n) "root" :: "metadata" :: local) = None) ->
  fs_new d local = (d0, Ok r) ->
  sessions (on_disk r) E cfg fuel raw d0 tr t d1 ->
  every_role harmless tr ->
  rm_version (t_root t) < u32_max ->
  exec (construct E cfg fuel' (FromRoot raw)) tr3 q -> on_disk r d1 tr3 d3 ->
  (forall c, In (EvNow c) tr3 -> in_time t c) ->
  carried_over E cfg fuel' raw t tr3 q.
Proof.
  intros E cfg fuel fuel' raw t0 d d0 local r tr t d1 tr3 q d3 F S N Top New Se Ro Sm X3 Y3 B.
  apply (carried _ _ _ _ _ _ _ X3).
  destruct (C79_new_keeps_apart _ _ _ _ S New) as (S0 & C0 & Dm & Dt & _).
  destruct (fs_new_shape _ _ _ _ S New) as [Qr Nd]. subst r. cbn [fr_metadata fr_targets] in Dm, Dt.
  set (r := mkFsRepo ("metadata" :: local) ("targets" :: local)) in *.
  destruct (memory_of local d0 (rm_version (t_root t0))) as (m0 & M0 & Mt).
  { intros n Hn. rewrite C0. now apply Top. }
  refine (restart_keeps disk (on_disk r) harmless (disk_like local) harmless_names
            (fun m0 s tr s' h R M H => on_disk_mem local s tr s' R m0 h M H)
            E cfg fuel fuel' raw t0 m0 d0 tr t d1 tr3 q d3 F _ Mt Se Ro Sm X3 Y3 B).
  split; [exact S0|]. split; [exact Dm|]. split; [|exact M0].
  intros f Hf Hd. apply (N f Hf). now apply Nd.
Qed.
Print Assumptions C89_no_rollback_with_a_directory_partial.

(** A client that has been told of a new timestamp, but not of the snapshot that belongs
    to it: its update fails.  It is started again. *)
Definition remote_half : ephemeral :=
  mkEphemeral [(("root", VNumber 1), "root1"); (("root", VNumber 2), "root2"); (("timestamp", VNone), "ts2")] [].
Definition half := drive 50 local_updated remote_half c50 (update Ec default_config 9 t_updated).
Definition t_half : tuf := fst (result_of half (t_updated, Err NotFound)).
Definition half_again := drive 50 (snd (fst half)) remote_half c50 (construct Ec default_config 9 (FromRoot "root1")).
Definition t_half_again : tuf := match result_of half_again (Err NotFound) with Ok t => t | Err _ => tuf_of_root root1 end.
Definition half_old := drive 50 (snd (fst half_again)) remote1 c50 (update Ec default_config 9 t_half_again).
Definition half_trace : list event := (fst (fst started) ++ fst (fst updated)) ++ fst (fst half).

Example C89_restart_case :
  from_trusted_root Ec "root1" = Ok (tuf_of_root root1) /\
  sessions in_memory Ec default_config 9 "root1" ephemeral_new half_trace t_half (snd (fst half)) /\
  snd half = Ret (t_half, Err NotFound) /\
  no_role_named "timestamp" half_trace /\ no_role_named "targets" half_trace /\
  timestamp_version t_updated = 1 /\ timestamp_version t_half = 2 /\ t_snapshot t_half = None /\
  in_time t_half c50 /\
  (* the theorem applies: what comes back is *)
  snd half_again = Ret (Ok (mkTuf root2 None None (t_timestamp t_half) [])) /\
  (* and the old timestamp is refused *)
  snd half_old = Ret (t_half_again, Err VerificationFailure).
Proof.
  destruct updated_ok as (E1 & E2 & _). destruct (drive_run _ _ _ _ _ _ E1) as [X1 Y1].
  destruct (drive_run _ _ _ _ _ _ E2) as [X2 Y2].
  assert (E3 : snd half = Ret (t_half, Err NotFound)) by (vm_compute; reflexivity).
  destruct (drive_run _ _ _ _ _ _ E3) as [X3 Y3].
  split; [vm_compute; reflexivity|].
  split. { eapply session_update; [|exact X3|exact Y3]. eapply session_update; [|exact X2|exact Y2].
           apply session_first; [exact X1|exact Y1]. }
  split; [exact E3|].
  assert (D : Forall (delegating ["alice"; "bob"]) half_trace).
  { vm_compute. repeat first [left; reflexivity|right; left; reflexivity|constructor]. }
  split. { apply delegating_no_role with (names := ["alice"; "bob"]); [cbn; intuition discriminate|exact D]. }
  split. { apply delegating_no_role with (names := ["alice"; "bob"]); [cbn; intuition discriminate|exact D]. }
  split; [vm_compute; reflexivity|]. split; [vm_compute; reflexivity|]. split; [vm_compute; reflexivity|].
  split. { intros n [<-|[<-|[<-|[<-|[<-|[]]]]]]; vm_compute; (split; [reflexivity|]);
           intros x Q; inversion Q; reflexivity. }
  split; vm_compute; reflexivity.
Qed.

(** ** What the full statement misses *)

(** A timestamp that has expired is not taken over: the older one, which is valid for
    longer, is refused before the restart and accepted after it. *)
Definition orepo : toydb :=
  [ ("root1", (["kr1"; "kr2"], DRoot root1));
    ("ts1", (["kt"], DTimestamp (mkTimestamp 1 300 (mdesc 1 "snap1"))));
    ("ts2", (["kt"], DTimestamp (mkTimestamp 2 100 (mdesc 2 "snap2"))));
    ("snap1", (["ks"], DSnapshot (mkSnapshot 1 600 [("targets", mdesc 1 "targets1")])));
    ("snap2", (["ks"], DSnapshot (mkSnapshot 2 600 [("targets", mdesc 2 "targets2")])));
    ("targets1", (["kg"], DTargets (mkTargets 1 500 [("top", content_desc "old")] None)));
    ("targets2", (["kg"], DTargets (mkTargets 2 500 [("top", content_desc "new")] None))) ].
Definition Eo : env := toy_env orepo.
Definition oremote (n : string) : ephemeral :=
  mkEphemeral [(("timestamp", VNone), ("ts" ++ n)%string); (("snapshot", VNone), ("snap" ++ n)%string);
               (("targets", VNone), ("targets" ++ n)%string)] [].
Definition c150 : clock := now 150.
Definition ostart := drive 50 ephemeral_new (oremote "2") c50 (construct Eo default_config 9 (FromRoot "root1")).
Definition oupdate := drive 50 (snd (fst ostart)) (oremote "2") c50 (update Eo default_config 9 (tuf_of_root root1)).
Definition t_oupdate : tuf := fst (result_of oupdate (tuf_of_root root1, Err NotFound)).
(* without a restart *)
Definition orefused := drive 50 (snd (fst oupdate)) (oremote "1") c150 (update Eo default_config 9 t_oupdate).
(* with a restart *)
Definition orestart := drive 50 (snd (fst oupdate)) (oremote "1") c150 (construct Eo default_config 9 (FromRoot "root1")).
Definition oback := drive 50 (snd (fst orestart)) (oremote "1") c150 (update Eo default_config 9 (tuf_of_root root1)).
Definition t_oback : tuf := fst (result_of oback (tuf_of_root root1, Err NotFound)).

Theorem C89_expired_timestamp_refuted :
  exists E cfg fuel raw tr t e tr1 e1 tr3 t3 e3 tr4 t4 e4,
    sessions in_memory E cfg fuel raw ephemeral_new tr t e /\
    no_role_named "timestamp" tr /\ no_role_named "targets" tr /\
    (* without a restart: refused *)
    exec (update E cfg fuel t) tr1 (Ret (t, Err VerificationFailure)) /\ in_memory e tr1 e1 /\
    (* with a restart *)
    exec (construct E cfg fuel (FromRoot raw)) tr3 (Ret (Ok t3)) /\ in_memory e tr3 e3 /\
    exec (update E cfg fuel t3) tr4 (Ret (t4, Ok true)) /\ in_memory e3 tr4 e4 /\
    (* at the same time, the remote repository saying the same *)
    (forall c, In (EvNow c) (tr1 ++ tr3 ++ tr4) -> c = now 150) /\
    (forall p v max hash a a' max' hash', In (EvFetchMeta Remote p v max hash a) tr1 ->
       In (EvFetchMeta Remote p v max' hash' a') tr4 -> a = a') /\
    t_root t4 = t_root t /\
    timestamp_version t = 2 /\ timestamp_version t4 = 1 /\
    snapshot_version t = 2 /\ snapshot_version t4 = 1 /\
    targets_version t = 2 /\ targets_version t4 = 1.
Proof.
  assert (E1 : snd ostart = Ret (Ok (tuf_of_root root1))) by (vm_compute; reflexivity).
  destruct (drive_run _ _ _ _ _ _ E1) as [X1 Y1].
  assert (E2 : snd oupdate = Ret (t_oupdate, Ok true)) by (vm_compute; reflexivity).
  destruct (drive_run _ _ _ _ _ _ E2) as [X2 Y2].
  assert (E3 : snd orefused = Ret (t_oupdate, Err VerificationFailure)) by (vm_compute; reflexivity).
  destruct (drive_run _ _ _ _ _ _ E3) as [X3 Y3].
  assert (E4 : snd orestart = Ret (Ok (tuf_of_root root1))) by (vm_compute; reflexivity).
  destruct (drive_run _ _ _ _ _ _ E4) as [X4 Y4].
  assert (E5 : snd oback = Ret (t_oback, Ok true)) by (vm_compute; reflexivity).
  destruct (drive_run _ _ _ _ _ _ E5) as [X5 Y5].
  exists Eo, default_config, 9%nat, "root1", (fst (fst ostart) ++ fst (fst oupdate)), t_oupdate, (snd (fst oupdate)),
    (fst (fst orefused)), (snd (fst orefused)), (fst (fst orestart)), (tuf_of_root root1), (snd (fst orestart)),
    (fst (fst oback)), t_oback, (snd (fst oback)).
  split. { eapply session_update; [|exact X2|exact Y2]. apply session_first; [exact X1|exact Y1]. }
  assert (D : Forall (delegating []) (fst (fst ostart) ++ fst (fst oupdate))) by (vm_compute; repeat constructor).
  split. { apply delegating_no_role with (names := []); [cbn; tauto|exact D]. }
  split. { apply delegating_no_role with (names := []); [cbn; tauto|exact D]. }
  split; [exact X3|]. split; [exact Y3|]. split; [exact X4|]. split; [exact Y4|]. split; [exact X5|]. split; [exact Y5|].
  split. { assert (F : Forall (fun e => match e with EvNow c => c = c150 | _ => True end)
                         (fst (fst orefused) ++ fst (fst orestart) ++ fst (fst oback))) by (vm_compute; repeat constructor).
           rewrite Forall_forall in F. intros c I. exact (F _ I). }
  split. { assert (F : forall tr, Forall (fun e => match e with EvFetchMeta Remote p v _ _ a =>
                         a = ephemeral_fetch_metadata (oremote "1") p v | _ => True end) tr ->
                       forall p v mx hs a, In (EvFetchMeta Remote p v mx hs a) tr -> a = ephemeral_fetch_metadata (oremote "1") p v).
           { intros tr F p v mx hs a I. rewrite Forall_forall in F. exact (F _ I). }
           intros p v mx hs a a' mx' hs' I I'. apply F in I; [|vm_compute; repeat constructor].
           apply F in I'; [|vm_compute; repeat constructor]. congruence. }
  repeat (split; [vm_compute; reflexivity|]). vm_compute; reflexivity.
Qed.
Print Assumptions C89_expired_timestamp_refuted.
