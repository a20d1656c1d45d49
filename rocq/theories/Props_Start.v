(** * C99: starting a client from root keys or from the local root *)
From Coq Require Import String Ascii List NArith ZArith Bool Lia.
From Verif Require Import Base BaseFacts Metadata Verify Paths SpecPaths PathProofs Tuf SpecVerify SpecTuf TufProofs TufHistory
     Reader SpecReader ReaderProofs Repo Http SpecHttp Files SpecFiles FilesProofs Props_Files
     Client SpecClient SpecRestart SpecCache SpecStart ClientLogic ClientProofs ClientUpdates
     ClientRestart Toy ClientToy Props_Tuf CacheProofs StartProofs Props_Restart.
Import ListNotations.
Open Scope string_scope.
Open Scope list_scope.
Open Scope N_scope.

Definition other_name (n : string) : Prop := n <> "timestamp" /\ n <> "targets".
Definition same_metadata (e : ephemeral) (m : store) : Prop := ep_metadata e = m.

Lemma memory_rely : forall m0 s tr s' h, in_memory s tr s' -> same_metadata s (mem_at m0 h) ->
  (forall e, In e tr -> fine_event other_name e) -> along (mem_rely m0) h tr /\ same_metadata s' (mem_at m0 (h ++ tr)).
Proof. intros m0 s tr s' h R M _. exact (in_memory_mem _ _ _ R m0 h M). Qed.
Lemma memory_tail : forall s e tr s', in_memory s (e :: tr) s' ->
  match e with EvFetchMeta _ _ _ _ _ _ | EvPut _ => True | _ => False end -> in_memory s tr s'.
Proof.
  intros s e tr s' R H. inversion R as [|? ? s1 ? ? St R']; subst.
  destruct e as [sd p v mx hs a| | | | | |]; try contradiction; cbn in St; [destruct sd; [destruct St as [_ St]|]|]; now subst.
Qed.
Lemma disk_tail r : forall s e tr s', on_disk r s (e :: tr) s' ->
  match e with EvFetchMeta _ _ _ _ _ _ | EvPut _ => True | _ => False end -> on_disk r s tr s'.
Proof.
  intros s e tr s' R H. inversion R as [|? ? s1 ? ? St R']; subst.
  destruct e as [sd p v mx hs a| | | | | |]; try contradiction; cbn in St; [destruct sd; [destruct St as [_ St]|]|]; now subst.
Qed.

(** The pinned root is in the local repository.  Then it is the same to give the root
    itself, to give its version and keys that signed it, or (if it is the first) to have
    the local root used: the root is read there, nothing else differs. *)
Theorem C99_same_as_giving_the_root :
  forall (E : env) (cfg : config) (fuel : nat) (raw : bytes) (t0 : tuf) (c : ctor)
         (e : ephemeral) (q : prog (result tuf)) (e' : ephemeral),
  from_trusted_root E raw = Ok t0 ->
  lookup ("root", VNumber (rm_version (t_root t0))) (ep_metadata e) = Some raw ->
  fits_length (cf_max_root cfg) raw -> length_ok u64_max raw ->
  pins E raw t0 c -> q <> construct E cfg fuel c ->
  forall tr,
  exec (construct E cfg fuel c) tr q /\ in_memory e tr e' <->
  exists tr', tr = looks_up cfg raw t0 c ++ tr' /\
              exec (construct E cfg fuel (FromRoot raw)) tr' q /\ in_memory e tr' e'.
Proof.
  intros E cfg fuel raw t0 c e q e' F H L1 L2 P Nq tr. split.
  - intros [X Y].
    destruct (start_like E cfg ephemeral in_memory other_name same_metadata memory_rely memory_tail raw t0 F L1 L2
                fuel c (ep_metadata e) e tr q e' P eq_refl H X Y) as [(_ & _ & Q)|R]; [contradiction|exact R].
  - intros (tr' & -> & X & Y). split; [now apply start_conv|].
    destruct c; cbn [looks_up app]; auto.
    + apply (in_memory_cons _ _ e); [|exact Y]. cbn. unfold ephemeral_fetch_metadata. now rewrite H.
    + apply (in_memory_cons _ _ e); [|exact Y]. cbn. unfold ephemeral_fetch_metadata. now rewrite H.
Qed.
Print Assumptions C99_same_as_giving_the_root.

(** A client made from root keys trusts a root with that version in its name that the
    local repository or else the remote one has.  In the latter case it is stored under its
    own version.  All else is as if that root were given. *)
Theorem C99_root_keys :
  forall (E : env) (cfg : config) (fuel : nat) (v : meta_version) (th : N) (keys : list public_key)
         (e : ephemeral) (tr : list event) (t : tuf) (e' : ephemeral),
  faithful (e_ic E) ->
  exec (construct E cfg fuel (FromKeys v th keys)) tr (Ret (Ok t)) -> in_memory e tr e' ->
  exists raw t0 tr' e1,
    from_root_with_trusted_keys E raw th keys = Ok t0 /\ from_trusted_root E raw = Ok t0 /\
    fits_length (cf_max_root cfg) raw /\ length_ok u64_max raw /\
    exec (construct E cfg fuel (FromRoot raw)) tr' (Ret (Ok t)) /\ in_memory e1 tr' e' /\
    (forall x, In (EvPut x) tr' -> In (EvPut x) tr) /\
    match lookup ("root", v) (ep_metadata e) with
    | Some b => raw = b /\ e1 = e /\ forall ev, In ev tr -> local_reading ev
    | None =>
        (exists rs, In (EvFetchMeta Remote "root" v (cf_max_root cfg) None (Ok rs)) tr /\ contains rs raw None) /\
        e1 = mkEphemeral (insert ("root", VNumber (rm_version (t_root t0))) raw (ep_metadata e)) (ep_targets e)
    end.
Proof.
  intros E cfg fuel v th keys e tr t e' Fa X Y. destruct (lookup ("root", v) (ep_metadata e)) as [b|] eqn:L.
  - destruct (keys_found E cfg fuel v th keys tr t b Fa X) as (t0 & tr' & -> & L1 & L2 & Fk & Ft & X').
    { intros a tr' ->. inversion Y as [|? ? s1 ? ? St R']; subst. cbn in St. destruct St as [-> _].
      unfold ephemeral_fetch_metadata. now rewrite L. }
    exists b, t0, tr', e. split; [exact Fk|]. split; [exact Ft|]. split; [exact L1|]. split; [exact L2|]. split; [exact X'|].
    split; [exact (memory_tail _ _ _ _ Y I)|]. split; [now right|]. split; [reflexivity|]. split; [reflexivity|].
    intros ev [<-|H]; [exact I|]. exact (root_reads _ _ _ _ _ _ X' ev H).
  - destruct (keys_fetch E cfg fuel v th keys tr t Fa X) as (raw & t0 & rs & tr' & -> & Ct & L1 & L2 & Fk & Ft & X').
    { intros a tr' ->. inversion Y as [|? ? s1 ? ? St R']; subst. cbn in St. destruct St as [-> _].
      unfold ephemeral_fetch_metadata. now rewrite L. }
    apply memory_tail in Y; [|exact I]. apply memory_tail in Y; [|exact I]. apply memory_tail in Y; [|exact I].
    inversion Y as [|? ? s1 ? ? St R']; subst. cbn [in_memory_step] in St. rewrite store_cursor in St. injection St as Q.
    exists raw, t0, (EvPut t0 :: tr'), s1. split; [exact Fk|]. split; [exact Ft|]. split; [exact L1|]. split; [exact L2|].
    split; [exact X'|]. split; [now apply (in_memory_cons _ _ s1)|].
    split; [intros x [H|H]; [rewrite <- H; right; right; now left|do 4 right; exact H]|].
    split; [exists rs; split; [right; now left|exact Ct]|now symmetry].
Qed.
Print Assumptions C99_root_keys.

(** Clients may be started, and started again, in any of these ways.  After a successful
    [update], and further calls, a client started in any of them trusts the same top-level
    metadata, and neither asks the remote repository nor stores anything for that.  As in
    C49, it is assumed that no later root is there in the beginning, that futures of
    [update] are not dropped, that a version of the snapshot or the targets is not described
    in two ways, and that nobody delegates to roles named "timestamp" or "targets". *)
Theorem C99_restart_in_any_way :
  forall (E : env) (cfg : config) (fuel fuel' : nat) (raw : bytes) (t0 : tuf)
         (e0 : ephemeral) (c0 : ctor) (tr0 : list event) (t : tuf) (e : ephemeral)
         (tr : list event) (t' : tuf) (e' : ephemeral)
         (tr1 : list event) (t1 : tuf) (b : bool) (e1 : ephemeral)
         (tr2 : list event) (t2 : tuf) (e2 : ephemeral)
         (c : ctor) (tr3 : list event) (q : prog (result tuf)) (e3 : ephemeral),
  from_trusted_root E raw = Ok t0 ->
  lookup ("root", VNumber (rm_version (t_root t0))) (ep_metadata e0) = Some raw ->
  (forall n, rm_version (t_root t0) < n -> lookup ("root", VNumber n) (ep_metadata e0) = None) ->
  fits_length (cf_max_root cfg) raw -> length_ok u64_max raw ->
  (* a client, further calls and clients, a successful update and other calls *)
  pins E raw t0 c0 -> exec (construct E cfg fuel c0) tr0 (Ret (Ok t)) -> in_memory e0 tr0 e ->
  goes_on in_memory E cfg fuel (pins E raw t0) t e tr t' e' ->
  exec (update E cfg fuel t') tr1 (Ret (t1, Ok b)) -> in_memory e' tr1 e1 ->
  other_calls in_memory E cfg fuel t1 e1 tr2 t2 e2 ->
  stable_descriptions ((tr0 ++ tr) ++ tr1 ++ tr2) ->
  every_role other_name ((tr0 ++ tr) ++ tr1 ++ tr2) ->
  (* the restart *)
  pins E raw t0 c -> exec (construct E cfg fuel' c) tr3 q -> in_memory e2 tr3 e3 ->
  (forall cl, In (EvNow cl) tr3 -> before_expiry t1 cl) ->
  q <> Panic /\ (forall r, q = Ret r -> exists t3, r = Ok t3 /\ same_trust t1 t3) /\
  (forall ev, In ev tr3 -> local_reading ev).
Proof.
  intros E cfg fuel fuel' raw t0 e0 c0 tr0 t e tr t' e' tr1 t1 b e1 tr2 t2 e2 c tr3 q e3
         F H Top L1 L2 P0 X0 Y0 G X1 Y1 O2 Stb Ro P X3 Y3 B.
  destruct (start_sessions E cfg ephemeral in_memory other_name same_metadata (fun n H => H) memory_rely memory_tail
              raw t0 F L1 L2 (ep_metadata e0) Top H fuel e0 c0 tr0 t e eq_refl P0 X0 Y0 tr t' e' G
              (every_role_prefix _ _ _ Ro)) as (trS & Se & Pu).
  exact (start_restores E cfg ephemeral in_memory other_name same_metadata (fun n H => H) memory_rely memory_tail
              raw t0 F L1 L2 (ep_metadata e0) Top H fuel fuel' e0 trS t' e' (tr0 ++ tr) tr1 t1 b e1 tr2 t2 e2 c tr3 q e3
              eq_refl Se Pu X1 Y1 O2 Stb Ro P X3 Y3 B).
Qed.
Print Assumptions C99_restart_in_any_way.

(** In the beginning there may be no root at all, but keys: once a client made from root
    keys trusts a root, it can be replaced as above. *)
Theorem C99_restart_after_root_keys :
  forall (E : env) (cfg : config) (fuel : nat) (v : meta_version) (th : N) (keys : list public_key)
         (e0 : ephemeral) (tr0 : list event) (t : tuf) (e : ephemeral),
  faithful (e_ic E) ->
  (forall v', lookup ("root", v') (ep_metadata e0) = None) ->
  exec (construct E cfg fuel (FromKeys v th keys)) tr0 (Ret (Ok t)) -> in_memory e0 tr0 e ->
  exists raw t0,
  (exists rs, In (EvFetchMeta Remote "root" v (cf_max_root cfg) None (Ok rs)) tr0 /\ contains rs raw None) /\
  from_root_with_trusted_keys E raw th keys = Ok t0 /\ from_trusted_root E raw = Ok t0 /\
  pins E raw t0 (FromKeys (VNumber (rm_version (t_root t0))) th keys) /\
  forall fuel' tr t' e' tr1 t1 b e1 tr2 t2 e2 c tr3 q e3,
  goes_on in_memory E cfg fuel (pins E raw t0) t e tr t' e' ->
  exec (update E cfg fuel t') tr1 (Ret (t1, Ok b)) -> in_memory e' tr1 e1 ->
  other_calls in_memory E cfg fuel t1 e1 tr2 t2 e2 ->
  stable_descriptions ((tr0 ++ tr) ++ tr1 ++ tr2) ->
  every_role other_name ((tr0 ++ tr) ++ tr1 ++ tr2) ->
  pins E raw t0 c -> exec (construct E cfg fuel' c) tr3 q -> in_memory e2 tr3 e3 ->
  (forall cl, In (EvNow cl) tr3 -> before_expiry t1 cl) ->
  q <> Panic /\ (forall r, q = Ret r -> exists t3, r = Ok t3 /\ same_trust t1 t3) /\
  (forall ev, In ev tr3 -> local_reading ev).
Proof.
  intros E cfg fuel v th keys e0 tr0 t e Fa No X0 Y0.
  destruct (C99_root_keys E cfg fuel v th keys e0 tr0 t e Fa X0 Y0)
    as (raw & t0 & tr' & e1' & Fk & F & L1 & L2 & X0' & Y0' & Pu & H). rewrite No in H. destruct H as [Rs ->].
  exists raw, t0. split; [exact Rs|]. split; [exact Fk|]. split; [exact F|]. split; [now split|].
  intros fuel' tr t' e' tr1 t1 b e1 tr2 t2 e2 c tr3 q e3 G X1 Y1 O2 Stb Ro P X3 Y3 B.
  assert (Pu' : forall x, In (EvPut x) ((tr' ++ tr) ++ tr1 ++ tr2) -> In (EvPut x) ((tr0 ++ tr) ++ tr1 ++ tr2)).
  { intros x. rewrite !in_app_iff. intros [[H|H]|H]; auto. }
  eapply (C99_restart_in_any_way E cfg fuel fuel' raw t0 _ (FromRoot raw) tr' t e tr t' e' tr1 t1 b e1 tr2 t2 e2 c tr3 q e3 F);
    try eassumption; cbn [ep_metadata].
  - apply lookup_insert_eq.
  - intros n Hn. rewrite lookup_insert_neq; [apply No|]. intros Q. injection Q as Q. lia.
  - reflexivity.
  - destruct Stb as [S1 S2]. split; intros x1 x2; intros; [apply (S1 x1 x2)|eapply (S2 x1 x2)]; eauto.
  - intros x tg ds d I. apply (Ro x). auto.
Qed.
Print Assumptions C99_restart_after_root_keys.

(** The same as C99_restart_in_any_way with a directory. *)
Theorem C99_restart_in_any_way_with_a_directory :
  forall (E : env) (cfg : config) (fuel fuel' : nat) (raw : bytes) (t0 : tuf)
         (d d0 : disk) (local : file_name) (r : fs_repo)
         (c0 : ctor) (tr0 : list event) (t : tuf) (d1 : disk)
         (tr : list event) (t' : tuf) (d2 : disk)
         (tr1 : list event) (t1 : tuf) (b : bool) (d3 : disk)
         (tr2 : list event) (t2 : tuf) (d4 : disk)
         (c : ctor) (tr3 : list event) (q : prog (result tuf)) (d5 : disk),
  from_trusted_root E raw = Ok t0 ->
  sound_disk d ->
  (forall f, cache_file f -> ~ directory d (f :: "metadata" :: local)) ->
  content d (file_of (VNumber (rm_version (t_root t0))) "root" :: "metadata" :: local) = Some raw ->
  (forall n, rm_version (t_root t0) < n -> content d (file_of (VNumber n) "root" :: "metadata" :: local) = None) ->
  fits_length (cf_max_root cfg) raw -> length_ok u64_max raw ->
  fs_new d local = (d0, Ok r) ->
  pins E raw t0 c0 -> exec (construct E cfg fuel c0) tr0 (Ret (Ok t)) -> on_disk r d0 tr0 d1 ->
  goes_on (on_disk r) E cfg fuel (pins E raw t0) t d1 tr t' d2 ->
  exec (update E cfg fuel t') tr1 (Ret (t1, Ok b)) -> on_disk r d2 tr1 d3 ->
  other_calls (on_disk r) E cfg fuel t1 d3 tr2 t2 d4 ->
  stable_descriptions ((tr0 ++ tr) ++ tr1 ++ tr2) ->
  every_role harmless ((tr0 ++ tr) ++ tr1 ++ tr2) ->
  pins E raw t0 c -> exec (construct E cfg fuel' c) tr3 q -> on_disk r d4 tr3 d5 ->
  (forall cl, In (EvNow cl) tr3 -> before_expiry t1 cl) ->
  q <> Panic /\ (forall res, q = Ret res -> exists t3, res = Ok t3 /\ same_trust t1 t3) /\
  (forall ev, In ev tr3 -> local_reading ev).
Proof.
  intros E cfg fuel fuel' raw t0 d d0 local r c0 tr0 t d1 tr t' d2 tr1 t1 b d3 tr2 t2 d4 c tr3 q d5
         F S N H Top L1 L2 New P0 X0 Y0 G X1 Y1 O2 Stb Ro P X3 Y3 B.
  destruct (C79_new_keeps_apart _ _ _ _ S New) as (S0 & C0 & Dm & Dt & _).
  destruct (fs_new_shape _ _ _ _ S New) as [Qr Nd]. subst r. cbn [fr_metadata fr_targets] in Dm, Dt.
  set (r := mkFsRepo ("metadata" :: local) ("targets" :: local)) in *.
  destruct (memory_of local d0 (rm_version (t_root t0))) as (m0 & M0 & Mt).
  { intros n Hn. rewrite C0. now apply Top. }
  assert (H0 : lookup ("root", VNumber (rm_version (t_root t0))) m0 = Some raw).
  { rewrite <- M0; [rewrite C0; exact H|left; eauto]. }
  assert (Lk : disk_like local d0 m0).
  { split; [exact S0|]. split; [exact Dm|]. split; [|exact M0]. intros f Hf Hd. apply (N f Hf). now apply Nd. }
  assert (RM : forall m0 s tr s' h, on_disk r s tr s' -> disk_like local s (mem_at m0 h) ->
      (forall e, In e tr -> fine_event harmless e) -> along (mem_rely m0) h tr /\ disk_like local s' (mem_at m0 (h ++ tr))).
  { intros m s tr' s' h R M K. exact (on_disk_mem local s tr' s' R m h M K). }
  destruct (start_sessions E cfg disk (on_disk r) harmless (disk_like local) harmless_names RM (disk_tail r)
              raw t0 F L1 L2 m0 Mt H0 fuel d0 c0 tr0 t d1 Lk P0 X0 Y0 tr t' d2 G
              (every_role_prefix _ _ _ Ro)) as (trS & Se & Pu).
  exact (start_restores E cfg disk (on_disk r) harmless (disk_like local) harmless_names RM (disk_tail r)
              raw t0 F L1 L2 m0 Mt H0 fuel fuel' d0 trS t' d2 (tr0 ++ tr) tr1 t1 b d3 tr2 t2 d4 c tr3 q d5
              Lk Se Pu X1 Y1 O2 Stb Ro P X3 Y3 B).
Qed.
Print Assumptions C99_restart_in_any_way_with_a_directory.

(** However the calls before went, the root and the timestamp are kept, as in C89. *)
Theorem C99_no_rollback_in_any_way :
  forall (E : env) (cfg : config) (fuel fuel' : nat) (raw : bytes) (t0 : tuf)
         (e0 : ephemeral) (c0 : ctor) (tr0 : list event) (t : tuf) (e : ephemeral)
         (tr : list event) (t1 : tuf) (e1 : ephemeral)
         (c : ctor) (tr3 : list event) (q : prog (result tuf)) (e3 : ephemeral),
  from_trusted_root E raw = Ok t0 ->
  lookup ("root", VNumber (rm_version (t_root t0))) (ep_metadata e0) = Some raw ->
  (forall n, rm_version (t_root t0) < n -> lookup ("root", VNumber n) (ep_metadata e0) = None) ->
  fits_length (cf_max_root cfg) raw -> length_ok u64_max raw ->
  pins E raw t0 c0 -> exec (construct E cfg fuel c0) tr0 (Ret (Ok t)) -> in_memory e0 tr0 e ->
  goes_on in_memory E cfg fuel (pins E raw t0) t e tr t1 e1 ->
  every_role other_name (tr0 ++ tr) -> rm_version (t_root t1) < u32_max ->
  pins E raw t0 c -> exec (construct E cfg fuel' c) tr3 q -> in_memory e1 tr3 e3 ->
  (forall cl, In (EvNow cl) tr3 -> in_time t1 cl) ->
  q <> Panic /\
  (forall r, q = Ret r -> exists t3, r = Ok t3 /\ t_root t3 = t_root t1 /\
     (t_timestamp t1 <> None -> t_timestamp t3 = t_timestamp t1)) /\
  (forall ev, In ev tr3 -> local_reading ev).
Proof.
  intros E cfg fuel fuel' raw t0 e0 c0 tr0 t e tr t1 e1 c tr3 q e3 F H Top L1 L2 P0 X0 Y0 G Ro Sm P X3 Y3 B.
  destruct (start_sessions E cfg ephemeral in_memory other_name same_metadata (fun n H => H) memory_rely memory_tail
              raw t0 F L1 L2 (ep_metadata e0) Top H fuel e0 c0 tr0 t e eq_refl P0 X0 Y0 tr t1 e1 G Ro) as (trS & Se & Pu).
  exact (start_keeps E cfg ephemeral in_memory other_name same_metadata (fun n H => H) memory_rely memory_tail
              raw t0 F L1 L2 (ep_metadata e0) Top H fuel fuel' e0 trS t1 e1 (tr0 ++ tr) c tr3 q e3
              eq_refl Se Pu Ro Sm P X3 Y3 B).
Qed.
Print Assumptions C99_no_rollback_in_any_way.

(** A client made from root keys and an empty local repository, then one made from the
    local root, which updates and looks for a target; the remote repository is gone when
    three more are started. *)
Definition two_keys : list public_key := [toy_key "kr1"; toy_key "kr2"].
Definition keys_started := drive 50 ephemeral_new remote1 c50 (construct Ec default_config 9 (FromKeys (VNumber 1) 2 two_keys)).
Definition t_keys : tuf := match result_of keys_started (Err NotFound) with Ok t => t | Err _ => tuf_of_root root2 end.
Definition local_started := drive 50 (snd (fst keys_started)) remote1 c50 (construct Ec default_config 9 FromLocal).
Definition t_local : tuf := match result_of local_started (Err NotFound) with Ok t => t | Err _ => tuf_of_root root2 end.
Definition local_update := drive 50 (snd (fst local_started)) remote1 c50 (update Ec default_config 9 t_local).
Definition t_local' : tuf := fst (result_of local_update (t_local, Err NotFound)).
Definition local_look :=
  drive 50 (snd (fst local_update)) remote1 c50 (call_prog Ec default_config 9 t_local' (CallDescription "a/x")).
Definition last_start (c : ctor) := drive 50 (snd (fst local_look)) ephemeral_new c50 (construct Ec default_config 9 c).
Definition start_trace : list event :=
  (fst (fst keys_started) ++ fst (fst local_started)) ++ fst (fst local_update) ++ fst (fst local_look).

Example C99_case :
  faithful (e_ic Ec) /\
  snd keys_started = Ret (Ok t_keys) /\
  pins Ec "root1" (tuf_of_root root1) FromLocal /\
  pins Ec "root1" (tuf_of_root root1) (FromKeys (VNumber 1) 2 two_keys) /\
  goes_on in_memory Ec default_config 9 (pins Ec "root1" (tuf_of_root root1)) t_keys (snd (fst keys_started))
    (fst (fst local_started)) t_local (snd (fst local_started)) /\
  snd local_update = Ret (t_local', Ok true) /\
  other_calls in_memory Ec default_config 9 t_local' (snd (fst local_update)) (fst (fst local_look))
    (tuf_after t_local' (fst (fst local_look))) (snd (fst local_look)) /\
  stable_descriptions start_trace /\ every_role other_name start_trace /\
  before_expiry t_local' c50 /\
  (* the root was stored, and the theorem applies: what comes back is *)
  lookup ("root", VNumber 1) (ep_metadata (snd (fst keys_started))) = Some "root1" /\
  Forall (fun c => snd (last_start c) = Ret (Ok (mkTuf root2 (t_snapshot t_updated) (Some ctargets1) (t_timestamp t_updated) [])))
    [FromRoot "root1"; FromLocal; FromKeys (VNumber 1) 2 two_keys].
Proof.
  assert (E1 : snd keys_started = Ret (Ok t_keys)) by (vm_compute; reflexivity).
  assert (E2 : snd local_started = Ret (Ok t_local)) by (vm_compute; reflexivity).
  destruct (drive_run _ _ _ _ _ _ E2) as [X2 Y2].
  split; [apply toy_faithful|]. split; [exact E1|]. split; [reflexivity|].
  split; [split; [reflexivity|vm_compute; reflexivity]|].
  split. { exact (on_start in_memory Ec default_config 9 _ _ _ [] _ _ FromLocal _ _ _
                    (on_here _ _ _ _ _ _ _) eq_refl X2 Y2). }
  split; [vm_compute; reflexivity|].
  split. { rewrite <- (app_nil_r (fst (fst local_look))) at 1.
           eapply one_call with (k := CallDescription "a/x"); [discriminate|
             exact (proj1 (drive_run _ _ _ _ _ _ eq_refl))|exact (proj2 (drive_run _ _ _ _ _ _ eq_refl))|constructor]. }
  split. { apply described_once_stable with (ds := mdesc 1 "snap1") (dg := mdesc 1 "targets1").
           vm_compute. repeat constructor. }
  split. { apply no_role_every; apply delegating_no_role with (names := ["alice"; "bob"]);
             [cbn; intuition discriminate| |cbn; intuition discriminate|];
             vm_compute; repeat first [left; reflexivity|right; left; reflexivity|constructor]. }
  split. { intros n [<-|[<-|[<-|[<-|[<-|[]]]]]]; vm_compute; (split; [reflexivity|]);
           repeat split; intros x Q; inversion Q; reflexivity. }
  split; [vm_compute; reflexivity|].
  apply Forall_cons; [vm_compute; reflexivity|]. apply Forall_cons; [vm_compute; reflexivity|].
  apply Forall_cons; [vm_compute; reflexivity|]. apply Forall_nil.
Qed.

(** A root that is there in the beginning, of version 2; it is used, whatever the remote repository has. *)
Example C99_found_case :
  let e := mkEphemeral [(("root", VNumber 2), "root2")] [] in
  let x := drive 50 e ephemeral_new c50 (construct Ec default_config 9 (FromKeys (VNumber 2) 1 [toy_key "kr3"])) in
  snd x = Ret (Ok (tuf_of_root root2)) /\ snd (fst x) = e.
Proof. vm_compute. repeat split; reflexivity. Qed.
