(** * C88: restarting a client whose local repository is a directory *)
From Coq Require Import String Ascii List NArith ZArith Bool Lia.
From Verif Require Import Base BaseFacts Metadata Verify Paths SpecPaths PathProofs Tuf SpecVerify SpecTuf TufProofs TufHistory
     Reader SpecReader ReaderProofs Repo Http SpecHttp Files SpecFiles FilesProofs Props_Files
     Client SpecClient SpecRestart SpecCache ClientLogic ClientProofs ClientUpdates
     ClientRestart Toy ClientToy CacheProofs Props_Restart.
Import ListNotations.
Open Scope string_scope.
Open Scope list_scope.
Open Scope N_scope.

(** The directory of the local repository is opened and clients use it one after the
    other.  After a successful [update], and further calls, it can be opened again, and a
    client made from the same root trusts the same top-level metadata.  The full statement
    is false (see C49 and below); what is assumed beyond it:
    - nobody else writes to the disk, on which no root after the first is cached in the
      beginning and no directory has the name of a file of the top-level metadata;
    - futures of [update] are not dropped;
    - a version of the snapshot or the targets is not described in two ways;
    - nobody delegates to roles whose files have names of top-level metadata. *)
Theorem C88_restart_from_directory_partial :
  forall (E : env) (cfg : config) (fuel fuel' : nat) (raw : bytes) (t0 : tuf)
         (d d0 : disk) (local : file_name) (r : fs_repo)
         (tr : list event) (t : tuf) (d1 : disk)
         (tr1 : list event) (t1 : tuf) (b : bool) (d2 : disk)
         (tr2 : list event) (t2 : tuf) (d3 : disk),
  from_trusted_root E raw = Ok t0 ->
  sound_disk d ->
  (forall f, cache_file f -> ~ directory d (f :: "metadata" :: local)) ->
  (forall n, rm_version (t_root t0) < n -> content d (file_of (VNumber n) "root" :: "metadata" :: local) = None) ->
  fs_new d local = (d0, Ok r) ->
  (* some sessions, the last one ending with a successful update and other calls *)
  sessions (on_disk r) E cfg fuel raw d0 tr t d1 ->
  exec (update E cfg fuel t) tr1 (Ret (t1, Ok b)) -> on_disk r d1 tr1 d2 ->
  other_calls (on_disk r) E cfg fuel t1 d2 tr2 t2 d3 ->
  stable_descriptions (tr ++ tr1 ++ tr2) ->
  every_role harmless (tr ++ tr1 ++ tr2) ->
  (* the restart *)
  fs_new d3 local = (d3, Ok r) /\
  forall tr3 q d4,
  exec (construct E cfg fuel' (FromRoot raw)) tr3 q -> on_disk r d3 tr3 d4 ->
  (forall c, In (EvNow c) tr3 -> before_expiry t1 c) ->
  q <> Panic /\ forall res, q = Ret res -> exists t3, res = Ok t3 /\ same_trust t1 t3.
Proof.
  intros E cfg fuel fuel' raw t0 d d0 local r tr t d1 tr1 t1 b d2 tr2 t2 d3 F S N Top New Se X1 Y1 O2 Stb Ro.
  destruct (C79_new_keeps_apart _ _ _ _ S New) as (S0 & C0 & Dm & Dt & _).
  destruct (fs_new_shape _ _ _ _ S New) as [Qr Nd]. subst r. cbn [fr_metadata fr_targets] in Dm, Dt.
  set (r := mkFsRepo ("metadata" :: local) ("targets" :: local)) in *.
  split.
  - assert (R : on_disk r d0 (tr ++ tr1 ++ tr2) d3).
    { eapply on_disk_trans; [exact (sessions_runs _ _ _ _ _ _ _ _ _ Se)|].
      eapply on_disk_trans; [exact Y1|exact (other_calls_runs _ _ _ _ _ _ _ _ _ O2)]. }
    destruct (on_disk_keeps _ _ _ _ R) as [S3 D3]; [discriminate|discriminate|exact S0|].
    apply fs_new_again; auto.
  - intros tr3 q d4 X3 Y3 B.
    destruct (memory_of local d0 (rm_version (t_root t0))) as (m0 & M0 & Mt).
    { intros n Hn. rewrite C0. now apply Top. }
    refine (restart_restores disk (on_disk r) harmless (disk_like local) harmless_names
              (fun m0 s tr s' h R M H => on_disk_mem local s tr s' R m0 h M H)
              E cfg fuel fuel' raw t0 m0 d0 tr t d1 tr1 t1 b d2 tr2 t2 d3 tr3 q d4
              F _ Mt Se X1 Y1 O2 Stb Ro X3 Y3 B).
    split; [exact S0|]. split; [exact Dm|]. split; [|exact M0].
    intros f Hf Hd. apply (N f Hf). now apply Nd.
Qed.
Print Assumptions C88_restart_from_directory_partial.

(** ** Running clients on a disk *)

Fixpoint drive_disk {A} (n : nat) (fr : fs_repo) (l : disk) (r : ephemeral) (c : clock) (p : prog A)
  : list event * disk * prog A :=
  match n with
  | O => ([], l, p)
  | S n =>
      match p with
      | Ret _ | Panic | OutOfFuel => ([], l, p)
      | FetchMeta s path v max hash k =>
          let ans := match s with Local => fs_fetch_metadata fr l path v | Remote => ephemeral_fetch_metadata r path v end in
          let '(tr, l', q) := drive_disk n fr l r c (k ans) in (EvFetchMeta s path v max hash ans :: tr, l', q)
      | StoreMeta path v data k =>
          let (l1, ans) := fs_store_metadata fr l path v (cursor data) in
          let '(tr, l', q) := drive_disk n fr l1 r c (k ans) in (EvStoreMeta path v data ans :: tr, l', q)
      | FetchTarget path d k =>
          let ans := ephemeral_fetch_target r path in
          let '(tr, l', q) := drive_disk n fr l r c (k ans) in (EvFetchTarget path d ans :: tr, l', q)
      | StoreTarget path rs k =>
          match path_new path with
          | Ok _ =>
              let (l1, ans) := fs_store_target fr l path rs in
              let '(tr, l', q) := drive_disk n fr l1 r c (k ans) in (EvStoreTarget path rs ans :: tr, l', q)
          | Err _ => ([], l, p)
          end
      | Write data k =>
          let '(tr, l', q) := drive_disk n fr l r c (k None) in (EvWrite data None :: tr, l', q)
      | Now k => let '(tr, l', q) := drive_disk n fr l r c (k c) in (EvNow c :: tr, l', q)
      | Put t p => let '(tr, l', q) := drive_disk n fr l r c p in (EvPut t :: tr, l', q)
      end
  end.

Lemma drive_disk_exec {A} n fr : forall l r c (p : prog A) tr l' q, drive_disk n fr l r c p = (tr, l', q) ->
  exec p tr q /\ on_disk fr l tr l'.
Proof.
  induction n as [|n IH]; intros l r c p tr l' q H; cbn in H; [inversion H; subst; split; constructor|].
  destruct p as [a| | |s path v max hash k|path v data k|path d k|path rs k|data k|k|t p];
    try (inversion H; subst; split; constructor).
  - destruct (drive_disk n fr l r c _) as [[tr1 l1] q1] eqn:D. inversion H; subst. apply IH in D as [X M].
    split; [now constructor|]. apply on_disk_cons with l; [|exact M]. destruct s; cbn; auto.
  - destruct (fs_store_metadata fr l path v (cursor data)) as [l1 ans] eqn:S.
    destruct (drive_disk n fr l1 r c _) as [[tr1 l2] q1] eqn:D. inversion H; subst. apply IH in D as [X M].
    split; [now constructor|]. now apply on_disk_cons with l1.
  - destruct (drive_disk n fr l r c _) as [[tr1 l1] q1] eqn:D. inversion H; subst. apply IH in D as [X M].
    split; [now constructor|]. now apply on_disk_cons with l.
  - destruct (path_new path) as [p'|] eqn:P; [|inversion H; subst; split; constructor].
    apply path_new_iff in P as [_ P].
    destruct (fs_store_target fr l path rs) as [l1 ans] eqn:S.
    destruct (drive_disk n fr l1 r c _) as [[tr1 l2] q1] eqn:D. inversion H; subst. apply IH in D as [X M].
    split; [now constructor|]. apply on_disk_cons with l1; [split; [exact P|exact S]|exact M].
  - destruct (drive_disk n fr l r c _) as [[tr1 l1] q1] eqn:D. inversion H; subst. apply IH in D as [X M].
    split; [now constructor|]. now apply on_disk_cons with l.
  - destruct (drive_disk n fr l r c _) as [[tr1 l1] q1] eqn:D. inversion H; subst. apply IH in D as [X M].
    split; [now constructor|]. now apply on_disk_cons with l.
  - destruct (drive_disk n fr l r c _) as [[tr1 l1] q1] eqn:D. inversion H; subst. apply IH in D as [X M].
    split; [now constructor|]. now apply on_disk_cons with l.
Qed.
Lemma drive_disk_run {A} n fr l r c (p : prog A) q : snd (drive_disk n fr l r c p) = q ->
  exec p (fst (fst (drive_disk n fr l r c p))) q /\
  on_disk fr l (fst (fst (drive_disk n fr l r c p))) (snd (fst (drive_disk n fr l r c p))).
Proof. intros <-. destruct (drive_disk n fr l r c p) as [[tr l'] q'] eqn:H. exact (drive_disk_exec n fr l r c p tr l' q' H). Qed.
Definition disk_result {A} (x : list event * disk * prog A) (dflt : A) : A :=
  match snd x with Ret a => a | _ => dflt end.


(** A client on an empty disk: started, updated, asked for a delegated target and for
    another one, which is stored in the directory, too; then started again. *)
Definition opened : disk := fst (fs_new empty_disk ["repo"]).
Definition k_started := drive_disk 50 toy_fs opened remote1 c50 (construct Ec default_config 9 (FromRoot "root1")).
Definition k_tuf : tuf := match disk_result k_started (Err NotFound) with Ok t => t | Err _ => tuf_of_root root1 end.
Definition k_updated := drive_disk 50 toy_fs (snd (fst k_started)) remote1 c50 (update Ec default_config 9 k_tuf).
Definition k_tuf' : tuf := fst (disk_result k_updated (k_tuf, Err NotFound)).
Definition k_looked :=
  drive_disk 50 toy_fs (snd (fst k_updated)) remote1 c50 (call_prog Ec default_config 9 k_tuf' (CallDescription "a/x")).
Definition k_fetched :=
  drive_disk 50 toy_fs (snd (fst k_looked)) remote1 c50
    (call_prog Ec default_config 9 (tuf_after k_tuf' (fst (fst k_looked))) (CallTarget "top")).
Definition k_restarted :=
  drive_disk 50 toy_fs (snd (fst k_fetched)) remote1 c50 (construct Ec default_config 9 (FromRoot "root1")).
Definition k_trace : list event := (fst (fst k_started) ++ fst (fst k_updated) ++ fst (fst k_looked) ++ fst (fst k_fetched)).

Lemma delegating_every names (ok : string -> Prop) tr : (forall n, In n names -> ok n) -> Forall (delegating names) tr -> every_role ok tr.
Proof.
  rewrite Forall_forall. intros N H t tg ds d I K Q D. apply N. apply H in I as [I1 I2].
  assert (X : delegates_to names tg).
  { destruct K as [K|(r & K)]; [now rewrite K in I1|]. apply lookup_In in K. rewrite Forall_forall in I2.
    exact (I2 _ K). }
  unfold delegates_to in X. rewrite Q in X. rewrite Forall_forall in X. now apply X.
Qed.

Example C88_restart_case :
  from_trusted_root Ec "root1" = Ok (tuf_of_root root1) /\
  sound_disk empty_disk /\ (forall n, content empty_disk n = None) /\ (forall n, directory empty_disk n -> n = []) /\
  fs_new empty_disk ["repo"] = (opened, Ok toy_fs) /\
  sessions (on_disk toy_fs) Ec default_config 9 "root1" opened (fst (fst k_started)) k_tuf (snd (fst k_started)) /\
  snd k_updated = Ret (k_tuf', Ok true) /\
  on_disk toy_fs (snd (fst k_started)) (fst (fst k_updated)) (snd (fst k_updated)) /\
  other_calls (on_disk toy_fs) Ec default_config 9 k_tuf' (snd (fst k_updated)) (fst (fst k_looked) ++ fst (fst k_fetched))
    (tuf_after (tuf_after k_tuf' (fst (fst k_looked))) (fst (fst k_fetched))) (snd (fst k_fetched)) /\
  stable_descriptions k_trace /\ every_role harmless k_trace /\ before_expiry k_tuf' c50 /\
  (* the theorem applies: what comes back is *)
  snd k_restarted = Ret (Ok (mkTuf root2 (t_snapshot k_tuf') (Some ctargets1) (t_timestamp k_tuf') [])) /\
  t_timestamp k_tuf' <> None /\
  (* on the disk there are then *)
  dk_files (snd (fst k_fetched)) =
    [(["top"; "targets"; "repo"], "hello"); (["alice.json"; "metadata"; "repo"], "alice1");
     (["targets.json"; "metadata"; "repo"], "targets1"); (["snapshot.json"; "metadata"; "repo"], "snap1");
     (["timestamp.json"; "metadata"; "repo"], "ts1"); (["2.root.json"; "metadata"; "repo"], "root2");
     (["root.json"; "metadata"; "repo"], "root2")].
Proof.
  split; [vm_compute; reflexivity|]. split; [exact empty_sound|]. split; [reflexivity|].
  split; [intros n [->|[]]; reflexivity|]. split; [reflexivity|].
  split. { assert (E1 : snd k_started = Ret (Ok k_tuf)) by (vm_compute; reflexivity).
           destruct (drive_disk_run _ _ _ _ _ _ _ E1) as [X1 Y1]. apply session_first; [exact X1|exact Y1]. }
  split; [vm_compute; reflexivity|].
  split. { exact (proj2 (drive_disk_run _ _ _ _ _ _ _ eq_refl)). }
  split. { eapply one_call with (k := CallDescription "a/x"); [discriminate|
             exact (proj1 (drive_disk_run _ _ _ _ _ _ _ eq_refl))|exact (proj2 (drive_disk_run _ _ _ _ _ _ _ eq_refl))|].
           rewrite <- (app_nil_r (fst (fst k_fetched))) at 1.
           eapply one_call with (k := CallTarget "top"); [discriminate|
             exact (proj1 (drive_disk_run _ _ _ _ _ _ _ eq_refl))|exact (proj2 (drive_disk_run _ _ _ _ _ _ _ eq_refl))|constructor]. }
  split. { apply described_once_stable with (ds := mdesc 1 "snap1") (dg := mdesc 1 "targets1").
           vm_compute. repeat constructor. }
  split. { apply delegating_every with (names := ["alice"; "bob"]).
           - intros n [<-|[<-|[]]];
               (split; [match goal with |- acceptable_path ?p => apply (path_new_iff p p); reflexivity end|]);
               intros names (dir & f & Q & ->); (destruct dir as [|y [|z dir]]; cbn in Q; [injection Q as <-|discriminate Q..]);
               cbn [hd app file_of append]; apply not_cache; [vm_compute; intros [_ D]; now apply D|cbn; intuition discriminate|
                 vm_compute; intros [_ D]; now apply D|cbn; intuition discriminate].
           - vm_compute. repeat first [left; reflexivity|right; left; reflexivity|constructor]. }
  split. { intros n [<-|[<-|[<-|[<-|[<-|[]]]]]]; vm_compute; (split; [reflexivity|]);
           repeat split; intros x Q; inversion Q; reflexivity. }
  split; [vm_compute; reflexivity|]. split; [vm_compute; discriminate|]. vm_compute. reflexivity.
Qed.

(** ** What the full statement misses *)

(** A delegated role named "2.root": its metadata is stored where a restart looks for the
    root of version 2.  All of the cached metadata is then out of reach. *)
Definition xrepo : toydb :=
  [ ("root1", (["kr1"; "kr2"], DRoot root1));
    ("ts1", (["kt"], DTimestamp (mkTimestamp 1 300 (mdesc 1 "snap1"))));
    ("snap1", (["ks"], DSnapshot (mkSnapshot 1 600 [("targets", mdesc 1 "targets1"); ("2.root", mdesc 1 "evil1")])));
    ("targets1", (["kg"], DTargets (mkTargets 1 500 []
        (Some (mkDelegations (keys_of_names ["kd"]) [deleg "2.root" false ["kd"] ["a/"]])))));
    ("evil1", (["kd"], DTargets (mkTargets 1 400 [] None))) ].
Definition Ex : env := toy_env xrepo.
Definition xremote : ephemeral :=
  mkEphemeral [(("timestamp", VNone), "ts1"); (("snapshot", VNone), "snap1"); (("targets", VNone), "targets1");
               (("2.root", VNone), "evil1")] [].
Definition xstart := drive_disk 50 toy_fs opened xremote c50 (construct Ex default_config 9 (FromRoot "root1")).
Definition xupdate := drive_disk 50 toy_fs (snd (fst xstart)) xremote c50 (update Ex default_config 9 (tuf_of_root root1)).
Definition t_xupdate : tuf := fst (disk_result xupdate (tuf_of_root root1, Err NotFound)).
Definition xlook :=
  drive_disk 50 toy_fs (snd (fst xupdate)) xremote c50 (call_prog Ex default_config 9 t_xupdate (CallDescription "a/x")).
Definition xrestart := drive_disk 50 toy_fs (snd (fst xlook)) xremote c50 (construct Ex default_config 9 (FromRoot "root1")).

Theorem C88_role_named_like_a_root_refuted :
  exists E cfg fuel raw d0 r tr t d1 tr1 t1 d2 tr2 t2 d3 tr3 t3 d4,
    fs_new empty_disk ["repo"] = (d0, Ok r) /\
    sessions (on_disk r) E cfg fuel raw d0 tr t d1 /\
    exec (update E cfg fuel t) tr1 (Ret (t1, Ok true)) /\ on_disk r d1 tr1 d2 /\
    other_calls (on_disk r) E cfg fuel t1 d2 tr2 t2 d3 /\
    exec (construct E cfg fuel (FromRoot raw)) tr3 (Ret (Ok t3)) /\ on_disk r d3 tr3 d4 /\
    (forall c, In (EvNow c) tr3 -> before_expiry t1 c) /\
    stable_descriptions (tr ++ tr1 ++ tr2) /\
    every_role acceptable_path (tr ++ tr1 ++ tr2) /\
    no_role_named "timestamp" (tr ++ tr1 ++ tr2) /\ no_role_named "targets" (tr ++ tr1 ++ tr2) /\
    t_timestamp t1 <> None /\ t_snapshot t1 <> None /\ t_targets t1 <> None /\
    t_timestamp t3 = None /\ t_snapshot t3 = None /\ t_targets t3 = None.
Proof.
  assert (E1 : snd xstart = Ret (Ok (tuf_of_root root1))) by (vm_compute; reflexivity).
  destruct (drive_disk_run _ _ _ _ _ _ _ E1) as [X1 Y1].
  assert (E2 : snd xupdate = Ret (t_xupdate, Ok true)) by (vm_compute; reflexivity).
  destruct (drive_disk_run _ _ _ _ _ _ _ E2) as [X2 Y2].
  destruct (drive_disk_run _ _ _ _ _ _ _ (eq_refl (snd xlook))) as [X3 Y3].
  assert (E4 : snd xrestart = Ret (Ok (tuf_of_root root1))) by (vm_compute; reflexivity).
  destruct (drive_disk_run _ _ _ _ _ _ _ E4) as [X4 Y4].
  exists Ex, default_config, 9%nat, "root1", opened, toy_fs, (fst (fst xstart)), (tuf_of_root root1), (snd (fst xstart)),
    (fst (fst xupdate)), t_xupdate, (snd (fst xupdate)), (fst (fst xlook)), (tuf_after t_xupdate (fst (fst xlook))),
    (snd (fst xlook)), (fst (fst xrestart)), (tuf_of_root root1), (snd (fst xrestart)).
  split; [reflexivity|].
  split. { apply session_first; [exact X1|exact Y1]. }
  split; [exact X2|]. split; [exact Y2|].
  split. { rewrite <- (app_nil_r (fst (fst xlook))) at 1.
           eapply one_call with (k := CallDescription "a/x"); [discriminate|exact X3|exact Y3|constructor]. }
  split; [exact X4|]. split; [exact Y4|].
  split. { apply all_before_expiry with (c0 := c50).
    - intros n [<-|[<-|[<-|[<-|[<-|[]]]]]]; vm_compute; (split; [reflexivity|]);
           repeat split; intros x Q; inversion Q; reflexivity.
    - vm_compute. repeat constructor. }
  split. { apply described_once_stable with (ds := mdesc 1 "snap1") (dg := mdesc 1 "targets1").
           vm_compute. repeat constructor. }
  assert (D : Forall (delegating ["2.root"]) (fst (fst xstart) ++ fst (fst xupdate) ++ fst (fst xlook))).
  { vm_compute. repeat first [left; reflexivity|constructor]. }
  split. { apply delegating_every with (names := ["2.root"]); [|exact D].
           intros n [<-|[]]. match goal with |- acceptable_path ?p => apply (path_new_iff p p); reflexivity end. }
  split. { apply delegating_no_role with (names := ["2.root"]); [cbn; intuition discriminate|exact D]. }
  split. { apply delegating_no_role with (names := ["2.root"]); [cbn; intuition discriminate|exact D]. }
  repeat (split; [vm_compute; first [reflexivity|discriminate]|]). reflexivity.
Qed.
Print Assumptions C88_role_named_like_a_root_refuted.
