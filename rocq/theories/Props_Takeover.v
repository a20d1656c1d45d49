(** * C104: a new root undoes fast-forward attacks

    Somebody with stolen keys has had clients trust metadata with high version numbers.  The
    repository's own metadata, with lower ones, are now refused as old (C12). *)
From Coq Require Import String List NArith ZArith Bool Lia.
From Verif Require Import Base BaseFacts Metadata Verify Paths Tuf SpecVerify SpecTuf VerifyProofs TufProofs TufHistory
     Reader SpecReader Repo Client SpecClient SpecHonest SpecRestart ClientLogic ClientProofs ClientUpdates ClientHistory ClientTargets
     ClientRestart ClientHonest Toy ClientToy Props_Client Props_Restart Props_Honest SpecAttack AttackProofs Props_Attack.
Import ListNotations.
Open Scope string_scope.
Open Scope list_scope.
Open Scope N_scope.

(** The roots that the repository has published. *)
Definition its_root (p : publication) (r : root_metadata) : Prop := exists raw, In (raw, r) (pb_roots p).

(** The root keys are kept well (those of all roots published so far). *)
Definition roots_kept (E : env) (w : holders) (p : publication) : Prop :=
  unforgeable (e_crypto E) w /\ forall r, its_root p r -> kept_role E w r Root (its_root p).

(** With the keys of the current root, nothing has been signed that is newer than what is
    published, nor anything else with the same version. *)
Definition current_keys_kept (E : env) (w : holders) (p : publication) : Prop :=
  kept_role E w (pb_root p) Timestamp
    (fun ts => tm_version ts <= tm_version (pb_ts p) /\ (tm_version ts = tm_version (pb_ts p) -> ts = pb_ts p)) /\
  kept_role E w (pb_root p) Snapshot (fun s => sm_version s = sm_version (pb_sn p) -> s = pb_sn p) /\
  kept_role E w (pb_root p) Targets (fun g => tg_version g = tg_version (pb_tg p) -> g = pb_tg p).

(** A client that does not have the new root yet: whatever it trusts, the next update
    brings it the published metadata.  All keys except root keys may be in wrong hands,
    also those that the new root lists.  Missing: clients that have the new root already
    (below). *)
Theorem C104_new_root_undoes_fast_forward_partial :
  forall (E : env) (w : holders) (cfg : config) (p : publication) (fuel : nat) (c : ctor) (tr : list event) (t : tuf),
  in_order E cfg p -> roots_kept E w p -> good_start E w (its_root p) c tr ->
  life E cfg fuel c tr t -> t_root t <> pb_root p ->
  rm_version (pb_root p) < N.of_nat fuel ->
  follows_repository E cfg p fuel t.
Proof.
  intros E w cfg p fuel c tr t OK [U K] G L N Fu.
  destruct (C43_the_field_is_tracked _ _ _ _ _ _ L) as [T H].
  pose proof (C85_only_published_roots E w (its_root p) cfg fuel c tr t U K G H T) as R.
  apply history_sound in H. pose proof (sound_follows _ _ _ _ H t T) as Fo.
  apply C74_honest_repository_is_followed; auto.
  - exact (follows_reachable E c t Fo).
  - split; [exact R|]. intros Q. contradiction.
  - lia.
Qed.
Print Assumptions C104_new_root_undoes_fast_forward_partial.

(** If the new root also replaces the stolen keys, then no client is left behind, not even
    those that have been started again since, from a local repository with anything in it. *)
Theorem C104_new_keys_undo_it_everywhere :
  forall (E : env) (w : holders) (cfg : config) (p : publication) (fuel : nat) (c : ctor) (tr : list event) (t : tuf),
  in_order E cfg p -> roots_kept E w p -> current_keys_kept E w p -> good_start E w (its_root p) c tr ->
  life E cfg fuel c tr t ->
  rm_version (pb_root p) < N.of_nat fuel ->
  follows_repository E cfg p fuel t.
Proof.
  intros E w cfg p fuel c tr t OK [U K] (KT & KS & KG) G L Fu.
  destruct (C43_the_field_is_tracked _ _ _ _ _ _ L) as [T H].
  pose proof (C85_only_published_roots E w (its_root p) cfg fuel c tr t U K G H T) as R.
  destruct (C85_only_published_metadata E w cfg fuel c tr t U H T) as [D _].
  apply history_sound in H. pose proof (sound_follows _ _ _ _ H t T) as Fo.
  apply C74_honest_repository_is_followed; auto.
  - exact (follows_reachable E c t Fo).
  - split; [exact R|]. intros Q. rewrite <- Q in KT, KS, KG. split; [|split].
    + intros ts Hs. exact (D Timestamp _ ts ltac:(discriminate) KT Hs).
    + intros s Hs. exact (D Snapshot _ s ltac:(discriminate) KS Hs).
    + intros g Hg. exact (D Targets _ g ltac:(discriminate) KG Hg).
  - lia.
Qed.
Print Assumptions C104_new_keys_undo_it_everywhere.

(** ** A thief of kt *)

(** The thief has signed a timestamp of version 9.  The repository publishes a new root,
    with the same timestamp key or with another one, [key]. *)
Definition ff_root (key : string) : root_metadata :=
  mkRoot 2 1000 false (keys_of_names ["kr2"; "kr3"; "ks"; "kg"; key])
         (rd 2 ["kr2"; "kr3"]) (rd 1 ["ks"]) (rd 1 ["kg"]) (rd 1 [key]).
Definition ts_nine := mkTimestamp 9 300 (mdesc 9 "snap9").
Definition ff_honest (key : string) : list (string * list string) :=
  [ ("root1", ["kr1"; "kr2"]); ("root2", ["kr1"; "kr2"; "kr3"]); ("ts2", [key]); ("snap2", ["ks"]); ("targets1", ["kg"]) ].
Definition ff_stock (key : string) : toydb :=
  [ ("root1", (["kr1"; "kr2"], DRoot root1)); ("root2", (["kr1"; "kr2"; "kr3"], DRoot (ff_root key)));
    ("ts2", ([key], DTimestamp ts_two)); ("snap2", (["ks"], DSnapshot sn_two)); ("targets1", (["kg"], DTargets ctargets1));
    ("ts9", (["kt"], DTimestamp ts_nine)) ].
Definition ff_env (key : string) : env := mkEnv (watched_crypto ["kt"] (ff_honest key)) id_order (toy_ic (ff_stock key)).
Definition ff_world (key : string) : holders := watched_world ["kt"] (ff_honest key).
Definition ff_pub (key : string) : publication :=
  mkPublication [("root1", root1); ("root2", ff_root key)] (ff_root key) "ts2" ts_two "snap2" sn_two "targets1" ctargets1.

(** What the client is shown: first the thief's timestamp; then only the new root; then all. *)
Definition ff_thief : ephemeral := mkEphemeral [(("root", VNumber 1), "root1"); (("timestamp", VNone), "ts9")] [].
Definition ff_partly : ephemeral := mkEphemeral [(("root", VNumber 1), "root1"); (("root", VNumber 2), "root2")] [].
Definition ff_remote : ephemeral :=
  mkEphemeral [(("root", VNumber 1), "root1"); (("root", VNumber 2), "root2"); (("timestamp", VNone), "ts2");
               (("snapshot", VNone), "snap2"); (("targets", VNone), "targets1")] [].

Definition ff_t1 : tuf := mkTuf root1 None None (Some ts_nine) [].
Notation ff_started key := (drive 50 ephemeral_new ff_thief c50 (construct (ff_env key) default_config 9 (FromRoot "root1"))).
Notation ff_fooled key := (drive 50 (snd (fst (ff_started key))) ff_thief c50 (update (ff_env key) default_config 9 (tuf_of_root root1))).
Notation ff_new_root key := (drive 50 (snd (fst (ff_fooled key))) ff_partly c50 (update (ff_env key) default_config 9 ff_t1)).
Notation ff_again key := (drive 50 (snd (fst (ff_new_root key))) ff_partly c50 (construct (ff_env key) default_config 9 (FromRoot "root1"))).

Lemma ff_runs key : In key ["kt"; "kn"] ->
  snd (ff_started key) = Ret (Ok (tuf_of_root root1)) /\ snd (ff_fooled key) = Ret (ff_t1, Err NotFound) /\
  snd (ff_new_root key) = Ret (tuf_of_root (ff_root key), Err NotFound) /\
  snd (ff_again key) = Ret (Ok (mkTuf (ff_root key) None None (if String.eqb key "kt" then Some ts_nine else None) [])).
Proof. intros [<-|[<-|[]]]; vm_compute; auto. Qed.

Lemma ff_in_order key : In key ["kt"; "kn"] -> in_order (ff_env key) default_config (ff_pub key).
Proof. intros [<-|[<-|[]]]; [toy_in_order "root2" (ff_root "kt") "snap2" "targets1"|toy_in_order "root2" (ff_root "kn") "snap2" "targets1"]. Qed.

Lemma ff_offers key path v : offers (ff_pub key) path v (ephemeral_fetch_metadata ff_remote path v).
Proof.
  assert (K : forall raw, answered (Ok (cursor raw)) raw).
  { intros raw. exists (cursor raw). split; [reflexivity|apply contains_cursor]. }
  split; [|repeat split].
  - intros n -> ->. destruct (N.eq_dec n 1) as [-> |N1]; [|destruct (N.eq_dec n 2) as [-> |N2]].
    + left. exists "root1", root1. split; [now left|]. split; [reflexivity|apply K].
    + left. exists "root2", (ff_root key). split; [right; now left|]. split; [reflexivity|apply K].
    + right. split.
      * intros raw x [J|[J|[]]]; inversion J; subst; [exact (fun H => N1 (eq_sym H))|exact (fun H => N2 (eq_sym H))].
      * unfold ephemeral_fetch_metadata. destruct (lookup _ _) as [b|] eqn:L; [|reflexivity]. exfalso.
        apply lookup_In in L. cbn in L.
        repeat (destruct L as [L|L]; [inversion L; subst; congruence|]). exact L.
  - intros -> ->. apply K.
  - intros -> ->. apply K.
  - intros -> ->. apply K.
Qed.

(** Calls in a life, however they end. *)
Lemma life_update E cfg fuel c h t tr t' r : life E cfg fuel c h t -> exec (update E cfg fuel t) tr (Ret (t', r)) ->
  tuf_after t tr = t' -> life E cfg fuel c (h ++ tr) t'.
Proof.
  intros L X <-.
  assert (Y : exec (call_prog E cfg fuel t CallUpdate) (tr ++ [])
                   (Ret (tuf_after t tr, match r with Ok _ => Ok tt | Err e => Err e end))).
  { cbn [call_prog]. unfold forget. eapply exec_bind; [exact X|]. constructor. }
  rewrite app_nil_r in Y. exact (life_call _ _ _ _ _ _ _ _ _ L Y).
Qed.

Lemma ff_none key th keys : (forall k, In k keys -> pk_value k <> "kt") -> 0 < th -> outnumbered (ff_world key) th keys.
Proof.
  intros H L ids ND S. destruct ids as [|i ids]; cbn; [lia|]. exfalso.
  destruct (S i) as (k & I & _ & T); [now left|]. destruct T as [T|[]]. exact (H k I (eq_sym T)).
Qed.
Lemma ff_roots key : In key ["kt"; "kn"] -> roots_kept (ff_env key) (ff_world key) (ff_pub key).
Proof.
  intros K. split; [apply watched_unforgeable|]. intros r (raw & R). split.
  - destruct K as [<-|[<-|[]]]; destruct R as [R|[R|[]]]; inversion R; subst;
      (apply ff_none; [|vm_compute; reflexivity]); intros k I; toy_keys I; vm_compute; discriminate.
  - intros k msg m I. destruct K as [<-|[<-|[]]]; destruct R as [R|[R|[]]]; inversion R; subst; toy_keys I;
      intros (? & L & J); vm_compute in L;
      repeat (destruct L as [L|L]; [inversion L; subst; clear L; try (exfalso; revert J; vm_compute; intuition discriminate); vm_compute;
        let Q := fresh in intros Q; try discriminate; inversion Q; subst;
        first [exists "root1"; left; reflexivity|exists "root2"; right; left; reflexivity]|]); contradiction L.
Qed.
Lemma ff_keys : current_keys_kept (ff_env "kn") (ff_world "kn") (ff_pub "kn").
Proof.
  split; [|split]; (split;
  [ apply ff_none; [|vm_compute; reflexivity]; intros k I; toy_keys I; vm_compute; discriminate
  | intros k msg m I; toy_keys I; intros (? & L & J); vm_compute in L;
    repeat (destruct L as [L|L]; [inversion L; subst; clear L; try (exfalso; revert J; vm_compute; intuition discriminate); vm_compute;
        let Q := fresh in intros Q; try discriminate; inversion Q; subst; vm_compute;
          first [discriminate|reflexivity|intros _; reflexivity|split; [discriminate|intros _; reflexivity]]|]); contradiction L ]).
Qed.

(** The client is started, fooled, hears of the new root, and is started again. *)
Definition ff_h (key : string) : list event := (fst (fst (ff_started key)) ++ fst (fst (ff_fooled key))) ++ fst (fst (ff_new_root key)).
Lemma ff_session key : In key ["kt"; "kn"] ->
  exec (construct (ff_env key) default_config 9 (FromRoot "root1")) (fst (fst (ff_started key))) (Ret (Ok (tuf_of_root root1))) /\
  in_memory ephemeral_new (fst (fst (ff_started key))) (snd (fst (ff_started key))) /\
  exec (update (ff_env key) default_config 9 (tuf_of_root root1)) (fst (fst (ff_fooled key))) (Ret (ff_t1, Err NotFound)) /\
  in_memory (snd (fst (ff_started key))) (fst (fst (ff_fooled key))) (snd (fst (ff_fooled key))) /\
  exec (update (ff_env key) default_config 9 ff_t1) (fst (fst (ff_new_root key))) (Ret (tuf_of_root (ff_root key), Err NotFound)) /\
  in_memory (snd (fst (ff_fooled key))) (fst (fst (ff_new_root key))) (snd (fst (ff_new_root key))).
Proof.
  intros K. destruct (ff_runs key K) as (E1 & E2 & E3 & _).
  destruct (drive_run _ _ _ _ _ _ E3) as [X3 Y3]. destruct (drive_run _ _ _ _ _ _ E2) as [X2 Y2].
  destruct (drive_run _ _ _ _ _ _ E1) as [X1 Y1].
  split; [exact X1|]. split; [exact Y1|]. split; [exact X2|]. split; [exact Y2|]. split; [exact X3|exact Y3].
Qed.
Lemma ff_sessions key : In key ["kt"; "kn"] ->
  sessions in_memory (ff_env key) default_config 9 "root1" ephemeral_new (fst (fst (ff_started key)) ++ fst (fst (ff_fooled key))) ff_t1
    (snd (fst (ff_fooled key))) /\
  sessions in_memory (ff_env key) default_config 9 "root1" ephemeral_new (ff_h key) (tuf_of_root (ff_root key)) (snd (fst (ff_new_root key))).
Proof.
  intros K. destruct (ff_session key K) as (X1 & Y1 & X2 & Y2 & X3 & Y3). unfold ff_h.
  assert (S : sessions in_memory (ff_env key) default_config 9 "root1" ephemeral_new (fst (fst (ff_started key)) ++ fst (fst (ff_fooled key))) ff_t1
    (snd (fst (ff_fooled key)))).
  { eapply session_update; [|exact X2|exact Y2]. apply session_first; [exact X1|exact Y1]. }
  split; [exact S|]. eapply session_update; [exact S|exact X3|exact Y3].
Qed.

(** Both theorems apply to the client that was fooled. *)
Example C104_case : forall key, In key ["kt"; "kn"] ->
  let tr := fst (fst (ff_started key)) ++ fst (fst (ff_fooled key)) in
  in_order (ff_env key) default_config (ff_pub key) /\ roots_kept (ff_env key) (ff_world key) (ff_pub key) /\
  good_start (ff_env key) (ff_world key) (its_root (ff_pub key)) (FromRoot "root1") tr /\
  life (ff_env key) default_config 9 (FromRoot "root1") tr ff_t1 /\ t_root ff_t1 <> pb_root (ff_pub key) /\
  timestamp_version ff_t1 = 9 /\ tm_version (pb_ts (ff_pub key)) = 2 /\
  (* it is the thief's timestamp *)
  (exists sch, stolen (ff_world key) sch "kt") /\
  (key = "kn" -> current_keys_kept (ff_env key) (ff_world key) (ff_pub key)).
Proof.
  intros key K tr. split; [now apply ff_in_order|]. split; [now apply ff_roots|].
  assert (S0 : from_trusted_root (ff_env key) "root1" = Ok (tuf_of_root root1)) by (destruct K as [<-|[<-|[]]]; vm_compute; reflexivity).
  split. { intros t H. rewrite S0 in H. inversion H. exists "root1". now left. }
  destruct (ff_session key K) as (X1 & _ & X2 & _).
  assert (T : tuf_after (tuf_of_root root1) (fst (fst (ff_fooled key))) = ff_t1) by (destruct K as [<-|[<-|[]]]; vm_compute; reflexivity).
  split; [exact (life_update _ _ _ _ _ _ _ _ _ (life_new _ _ _ _ _ _ X1) X2 T)|].
  split; [discriminate|]. split; [reflexivity|]. split; [reflexivity|]. split; [exists (pk_scheme (toy_key "kt")); now left|].
  intros ->. exact ff_keys.
Qed.

(** ** What the full statement misses *)

(** With the same keys in the new root.  After the new root has arrived the client forgets
    the thief's timestamp, and would accept the repository's.  But if it is started again
    before it has got one, it takes the thief's out of its local repository, where that is
    still signed well, and from then on it refuses the repository's: until another root is
    published. *)
Theorem C104_started_again_refuted :
  exists (E : env) (w : holders) (cfg : config) (p : publication) (fuel : nat) (raw : bytes)
         (tr : list event) (t : tuf) (e : ephemeral) (tr3 : list event) (t3 : tuf) (e3 : ephemeral),
  in_order E cfg p /\ roots_kept E w p /\ (forall t0, from_trusted_root E raw = Ok t0 -> its_root p (t_root t0)) /\
  rm_version (pb_root p) < N.of_nat fuel /\
  (* a client on its own local repository, that has the new root *)
  sessions in_memory E cfg fuel raw ephemeral_new tr t e /\ t_root t = pb_root p /\
  follows_repository E cfg p fuel t /\
  (* started again *)
  exec (construct E cfg fuel (FromRoot raw)) tr3 (Ret (Ok t3)) /\ in_memory e tr3 e3 /\
  ~ follows_repository E cfg p fuel t3.
Proof.
  assert (K : In "kt" ["kt"; "kn"]) by now left. destruct (ff_runs "kt" K) as (E1 & E2 & E3 & E4). cbn [String.eqb Ascii.eqb Bool.eqb] in E4.
  destruct (ff_sessions "kt" K) as [_ S]. destruct (drive_run _ _ _ _ _ _ E4) as [X4 Y4].
  eexists (ff_env "kt"), (ff_world "kt"), default_config, (ff_pub "kt"), 9%nat, "root1", _, _, _, _, _, _.
  split; [now apply ff_in_order|]. split; [now apply ff_roots|].
  split. { intros t0 H. vm_compute in H. inversion H. exists "root1". now left. }
  split; [reflexivity|]. split; [exact S|]. split; [reflexivity|].
  split. { apply C74_honest_repository_is_followed.
    - now apply ff_in_order.
    - apply (toy_start _ "root2"). vm_compute. reflexivity.
    - split; [exists "root2"; right; now left|]. intros _. repeat split; discriminate.
    - reflexivity. }
  split; [exact X4|]. split; [exact Y4|]. intros [H _].
  set (t3 := mkTuf (ff_root "kt") None None (Some ts_nine) []) in *.
  set (x := drive 50 (snd (fst (ff_again "kt"))) ff_remote c50 (update (ff_env "kt") default_config 9 t3)).
  assert (Q : snd x = Ret (t3, Err VerificationFailure)) by (vm_compute; reflexivity).
  assert (C : current (ff_pub "kt") c50) by exact (proj2 (proj2 current50)).
  pose proof (@drive_good _ (ff_pub "kt") ff_remote c50 (ff_offers "kt") C 50%nat (snd (fst (ff_again "kt"))) (update (ff_env "kt") default_config 9 t3)) as G.
  pose proof (@drive_exec _ 50%nat (snd (fst (ff_again "kt"))) ff_remote c50 (update (ff_env "kt") default_config 9 t3)) as X.
  fold x in G, X. destruct x as [[tr l] q]. cbn [fst snd] in *. subst q.
  destruct (H _ _ (proj1 (X _ _ _ eq_refl)) (G _ _ _ eq_refl)) as (_ & _ & H3). destruct (H3 _ _ eq_refl) as (_ & b & H4 & _). discriminate.
Qed.
Print Assumptions C104_started_again_refuted.
