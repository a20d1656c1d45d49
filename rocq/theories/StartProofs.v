(** * Proofs about starting a client in different ways: C99 *)
From Coq Require Import String List NArith ZArith Bool Lia.
From Verif Require Import Base BaseFacts Metadata StringFacts Verify Paths Tuf SpecVerify SpecTuf TufProofs TufHistory
     Reader SpecReader ReaderProofs Repo Client SpecClient SpecRestart SpecStart ClientLogic ClientProofs ClientUpdates ClientRestart.
Import ListNotations.
Open Scope string_scope.
Open Scope list_scope.
Open Scope N_scope.
Local Arguments insert : simpl never.
Local Arguments lookup : simpl never.

Lemma fits_readable C max raw : fits_length max raw -> length_ok u64_max raw ->
  read_metadata C max None (Ok (cursor raw)) = Ok raw.
Proof.
  intros H1 H2. unfold read_metadata. cbn [rbind safe_new].
  apply (read_to_end_ok C _ None _ _ _ eq_refl). split; [apply contains_cursor|]. split; [|now split].
  destruct max as [m|]; [now apply H1|exact H2].
Qed.

(** Keys that signed a root are as good as the root. *)
Lemma keys_are_root E raw th keys t0 : faithful (e_ic E) -> from_root_with_trusted_keys E raw th keys = Ok t0 ->
  from_trusted_root E raw = Ok t0.
Proof.
  intros Fa H. apply from_keys_iff in H as (root & A & T & ->). apply from_trusted_iff.
  assert (T' := T). destruct T' as (_ & sigs & signed & msg & E1 & E2 & _ & E3).
  exists sigs, signed, root, root. split; [exact E1|]. split; [|now split].
  rewrite <- (Fa Root _ _ _ _ E1 E2). exact E3.
Qed.

Section Start.
  Variable E : env.
  Variable cfg : config.
  Notation C := (e_crypto E).

  (** ** What a start, the root being there, makes of the local repository *)

  Lemma start_inv fuel c raw t0 tr q :
    from_trusted_root E raw = Ok t0 -> pins E raw t0 c -> fits_length (cf_max_root cfg) raw -> length_ok u64_max raw ->
    exec (construct E cfg fuel c) tr q ->
    (forall mx h a tr', tr = EvFetchMeta Local "root" (VNumber (rm_version (t_root t0))) mx h a :: tr' -> a = Ok (cursor raw)) ->
    c <> FromRoot raw /\ tr = [] /\ q = construct E cfg fuel c \/
    exists tr', tr = looks_up cfg raw t0 c ++ tr' /\ exec (construct E cfg fuel (FromRoot raw)) tr' q.
  Proof.
    intros F P L1 L2 X A. assert (Rd := fits_readable C _ _ L1 L2). destruct c as [|raw'|v th keys]; cbn [construct looks_up] in *.
    - cbn in P. unfold with_trusted_local, fetch_metadata in X. cbn in X.
      inversion X as [p Q1 Q2 Q3|? ? ? ? ? k ans tr' q' X' Q1 Q2 Q3| | | | | |]; subst; [left; repeat split; discriminate|].
      right. exists tr'. rewrite P in *. specialize (A _ _ _ _ eq_refl). subst ans. split; [reflexivity|].
      rewrite Rd in X'. exact X'.
    - cbn in P. subst raw'. right. exists tr. split; [reflexivity|exact X].
    - destruct P as [-> P]. unfold with_trusted_root_keys, fetch_metadata_from_local_or_else_remote, fetch_metadata in X. cbn in X.
      inversion X as [p Q1 Q2 Q3|? ? ? ? ? k ans tr' q' X' Q1 Q2 Q3| | | | | |]; subst; [left; repeat split; discriminate|].
      right. exists tr'. specialize (A _ _ _ _ eq_refl). subst ans. split; [reflexivity|].
      rewrite Rd in X'. cbn in X'. rewrite P in X'. unfold with_trusted_root. rewrite F. exact X'.
  Qed.

  Lemma start_conv fuel c raw t0 tr q :
    from_trusted_root E raw = Ok t0 -> pins E raw t0 c -> fits_length (cf_max_root cfg) raw -> length_ok u64_max raw ->
    exec (construct E cfg fuel (FromRoot raw)) tr q -> exec (construct E cfg fuel c) (looks_up cfg raw t0 c ++ tr) q.
  Proof.
    intros F P L1 L2 X. assert (Rd := fits_readable C _ _ L1 L2). destruct c as [|raw'|v th keys]; cbn [construct looks_up app] in *.
    - cbn in P. rewrite P. unfold with_trusted_local, fetch_metadata. cbn. constructor. rewrite Rd. exact X.
    - cbn in P. now subst raw'.
    - destruct P as [-> P]. unfold with_trusted_root_keys, fetch_metadata_from_local_or_else_remote, fetch_metadata. cbn.
      constructor. rewrite Rd. cbn. rewrite P. unfold with_trusted_root in X. rewrite F in X. exact X.
  Qed.

  (** ** Starting reads locally *)

  Definition DL : demands := mkDemands (fun _ _ => True) (fun _ => local_reading) (fun _ => True) True.
  Lemma wp_fetch_L r path v max hash h : wp DL (fetch_metadata E Local r path v max hash) (fun _ _ => True) h.
  Proof. apply wp_fetch_any; [auto|]. intros ans e _. split; exact I. Qed.
  Lemma wp_roots_L fuel : forall t updated h, wp DL (root_loop E cfg fuel Local false t updated) (fun _ _ => True) h.
  Proof.
    induction fuel as [|fuel IH]; intros t updated h; [exact I|]. cbn [root_loop].
    destruct (_ <=? _); [exact I|]. eapply wp_seq; [apply wp_fetch_L|]. clear h. intros h [raw|e] _; [|destruct e; exact I].
    destruct (update_root E t raw) as [t' [[]|e]]; cbn [wp]; intros _; (split; [exact I|]); [apply IH|exact I].
  Qed.
  Lemma wp_new_L fuel t h : wp DL (client_new E cfg fuel t) (fun _ _ => True) h.
  Proof.
    unfold client_new. eapply (wp_seq DL _ _ (fun _ _ => True)).
    { unfold update_root_with_repos. eapply wp_seq; [apply wp_roots_L|]. clear h. intros h [t' [u|e]] _; [|exact I].
      cbn [wp]. intros c _. split; [exact I|]. destruct (expired _ _); exact I. }
    clear h. intros h [t1 [r|e]] _; [|exact I]. eapply (wp_seq DL _ _ (fun _ _ => True)).
    { unfold update_timestamp_with_repos. eapply wp_seq; [apply wp_fetch_L|]. clear h. intros h [raw|e] _; [|exact I].
      cbn [wp]. intros c _. split; [exact I|]. destruct (update_timestamp E t1 c raw) as [t' [[n|]|e]]; cbn [wp];
      intros _; (split; [exact I|]); exact I. }
    clear h. intros h [t2 [r2|e]] _; [|exact I]. eapply (wp_seq DL _ _ (fun _ _ => True)).
    { unfold update_snapshot_with_repos. destruct (t_timestamp t2); [|exact I]. destruct (_ <=? _); [exact I|].
      destruct (hash_preference _); [|exact I].
      eapply wp_seq; [apply wp_fetch_L|]. clear h. intros h [raw|e] _; [|exact I].
      cbn [wp]. intros c _. split; [exact I|]. destruct (update_snapshot E t2 c raw) as [t' [[|]|e]]; cbn [wp];
      intros _; (split; [exact I|]); exact I. }
    clear h. intros h [t3 [r3|e]] _; [|exact I]. eapply (wp_seq DL _ _ (fun _ _ => True)).
    { unfold update_targets_with_repos. destruct (t_snapshot t3); [|exact I]. destruct (lookup _ _); [|exact I].
      destruct (_ <=? _); [exact I|]. destruct (hash_preference _); [|exact I].
      eapply wp_seq; [apply wp_fetch_L|]. clear h. intros h [raw|e] _; [|exact I].
      cbn [wp]. intros c _. split; [exact I|]. destruct (update_targets E t3 c raw) as [t' [[|]|e]]; cbn [wp];
      intros _; (split; [exact I|]); exact I. }
    clear h. intros h [t4 r4] _; exact I.
  Qed.
  Lemma new_reads fuel t tr q : exec (client_new E cfg fuel t) tr q -> forall e, In e tr -> local_reading e.
  Proof.
    intros X. destruct (wp_sound DL _ _ _ X _ _ (wp_new_L fuel t []) (along_true _ _)) as [G _].
    exact (along_in _ _ _ G).
  Qed.
  Lemma root_reads fuel raw tr q : exec (construct E cfg fuel (FromRoot raw)) tr q -> forall e, In e tr -> local_reading e.
  Proof.
    cbn [construct]. unfold with_trusted_root. destruct (from_trusted_root E raw) as [t|e0]; intros X e H;
      inversion X; subst; try contradiction. destruct H as [<-|H]; [exact I|]. eapply new_reads; eauto.
  Qed.

  (** ** The pinned root stays where it is *)

  Definition later_root (b : N) (e : event) : Prop :=
    match e with EvStoreMeta p v _ _ => forall n, p = "root" -> v = VNumber n -> b < n | _ => True end.
  Definition DB (b : N) : demands := mkDemands (fun _ _ => True) (fun _ => later_root b) (fun _ => True) True.

  Lemma wp_fetch_B b s r path v max hash h : wp (DB b) (fetch_metadata E s r path v max hash) (fun _ _ => True) h.
  Proof. apply wp_fetch_any; [auto|]. intros ans e _. split; exact I. Qed.
  Lemma wp_store_B b r path v raw h : (forall n, path = "root" -> v = VNumber n -> b < n) ->
    wp (DB b) (store_metadata r path v raw) (fun _ _ => True) h.
  Proof. intros T. apply wp_store_any; [auto|]. intros ans e _. split; [exact T|exact I]. Qed.
  Lemma wp_last_B b (persist : bool) r path raw (t' : tuf) h :
    wp (DB b) (if persist then do r1 <- store_metadata r path VNone raw in
             match r1 with Err e => Ret (t', Err e) | Ok _ => Ret (t', Ok true) end
           else Ret (t', Ok true)) (fun _ _ => True) h.
  Proof.
    destruct persist; [|exact I]. eapply wp_seq; [apply wp_store_B; discriminate|]. intros h' [[]|e] _; exact I.
  Qed.
  Lemma wp_roots_B b fuel : forall s (persist : bool) t updated h, b <= rm_version (t_root t) ->
    wp (DB b) (root_loop E cfg fuel s persist t updated) (fun _ _ => True) h.
  Proof.
    induction fuel as [|fuel IH]; intros s persist t updated h L; [exact I|]. cbn [root_loop].
    destruct (_ <=? _); [exact I|]. eapply wp_seq; [apply wp_fetch_B|]. clear h. intros h [raw|e] _; [|destruct e; exact I].
    destruct (update_root E t raw) as [t' [[]|e]] eqn:U; cbn [wp]; intros _; (split; [exact I|]); [|exact I].
    apply update_root_ok in U as (r & (_ & _ & V & _) & ->).
    assert (L' : b < rm_version r) by lia.
    destruct persist; [|apply IH; cbn; lia].
    eapply wp_seq; [apply wp_store_B; discriminate|]. intros h1 [[]|e] _; [|exact I].
    eapply wp_seq; [apply wp_store_B|].
    { intros n _ Q. inversion Q; subst. cbn. lia. }
    intros h2 [[]|e] _; [|exact I]. apply IH. cbn. lia.
  Qed.
  Lemma wp_update_B b fuel t h : b <= rm_version (t_root t) -> wp (DB b) (update E cfg fuel t) (fun _ _ => True) h.
  Proof.
    intros L. unfold update. eapply (wp_seq (DB b) _ _ (fun _ _ => True)).
    { unfold update_root_with_repos. eapply wp_seq; [now apply wp_roots_B|]. clear h. intros h [t' [u|e]] _; [|exact I].
      cbn [wp]. intros c _. split; [exact I|]. destruct (expired _ _); exact I. }
    clear h. intros h [t1 [r|e]] _; [|exact I]. eapply (wp_seq (DB b) _ _ (fun _ _ => True)).
    { unfold update_timestamp_with_repos. eapply wp_seq; [apply wp_fetch_B|]. clear h. intros h [raw|e] _; [|exact I].
      cbn [wp]. intros c _. split; [exact I|]. destruct (update_timestamp E t1 c raw) as [t' [[n|]|e]]; cbn [wp];
      intros _; (split; [exact I|]); try exact I. exact (wp_last_B b true _ _ _ _ _). }
    clear h. intros h [t2 [r2|e]] _; [|exact I]. eapply (wp_seq (DB b) _ _ (fun _ _ => True)).
    { unfold update_snapshot_with_repos. destruct (t_timestamp t2); [|exact I]. destruct (_ <=? _); [exact I|].
      destruct (hash_preference _); [|exact I].
      eapply wp_seq; [apply wp_fetch_B|]. clear h. intros h [raw|e] _; [|exact I].
      cbn [wp]. intros c _. split; [exact I|]. destruct (update_snapshot E t2 c raw) as [t' [[|]|e]]; cbn [wp];
      intros _; (split; [exact I|]); try exact I. exact (wp_last_B b true _ _ _ _ _). }
    clear h. intros h [t3 [r3|e]] _; [|exact I]. eapply (wp_seq (DB b) _ _ (fun _ _ => True)).
    { unfold update_targets_with_repos. destruct (t_snapshot t3); [|exact I]. destruct (lookup _ _); [|exact I].
      destruct (_ <=? _); [exact I|]. destruct (hash_preference _); [|exact I].
      eapply wp_seq; [apply wp_fetch_B|]. clear h. intros h [raw|e] _; [|exact I].
      cbn [wp]. intros c _. split; [exact I|]. destruct (update_targets E t3 c raw) as [t' [[|]|e]]; cbn [wp];
      intros _; (split; [exact I|]); try exact I. exact (wp_last_B b true _ _ _ _ _). }
    clear h. intros h [t4 [r4|e]] _; exact I.
  Qed.

  Lemma mem_later m0 b tr : (forall e, In e tr -> later_root b e) -> forall n, n <= b ->
    lookup ("root", VNumber n) (mem_at m0 tr) = lookup ("root", VNumber n) m0.
  Proof.
    induction tr as [|e tr IH] using rev_ind; intros H n L; [reflexivity|]. rewrite mem_at_snoc.
    assert (Q : lookup ("root", VNumber n) (meta_event (mem_at m0 tr) e) = lookup ("root", VNumber n) (mem_at m0 tr)).
    { specialize (H e ltac:(apply in_app_iff; right; now left)). destruct e as [s p v mx hs a|p v d a|p d a|p rs a|b' a|c|t]; cbn; auto.
      apply lookup_insert_neq. intros Q. injection Q as <- <-. cbn in H. specialize (H n eq_refl eq_refl). lia. }
    rewrite Q. apply IH; [|exact L]. intros x Hx. apply H. apply in_app_iff. now left.
  Qed.

  Definition same_puts (tr tr' : list event) : Prop := forall t, In (EvPut t) tr <-> In (EvPut t) tr'.
  Lemma puts_app a a' b b' : same_puts a a' -> same_puts b b' -> same_puts (a ++ b) (a' ++ b').
  Proof. intros A B t. rewrite !in_app_iff, (A t), (B t). reflexivity. Qed.
  Lemma puts_self a : same_puts a a.
  Proof. intros t. reflexivity. Qed.
  Lemma puts_looks raw t0 c tr : same_puts (looks_up cfg raw t0 c ++ tr) tr.
  Proof.
    intros t. destruct c; cbn [looks_up app]; try reflexivity; (split; [intros [H|H]; [discriminate|exact H]|now right]).
  Qed.
  Lemma puts_every ok a b : same_puts a b -> every_role ok a -> every_role ok b.
  Proof. intros P N t tg ds d I. apply (N t). now apply P. Qed.
  Lemma puts_stable a b : same_puts a b -> stable_descriptions a -> stable_descriptions b.
  Proof.
    intros P [N1 N2]. split; intros t1 t2; intros; [apply (N1 t1 t2)|eapply (N2 t1 t2)]; eauto; now apply P.
  Qed.

  (** ** Local repositories that answer like the memory *)
  Section Runs.
    Variable S : Type.
    Variable runs : S -> list event -> S -> Prop.
    Variable ok : string -> Prop.
    Variable like : S -> store -> Prop.
    Hypothesis OK : forall n, ok n -> n <> "timestamp" /\ n <> "targets".
    Hypothesis RM : forall m0 s tr s' h, runs s tr s' -> like s (mem_at m0 h) ->
      (forall e, In e tr -> fine_event ok e) -> along (mem_rely m0) h tr /\ like s' (mem_at m0 (h ++ tr)).
    Hypothesis runs_tail : forall s e tr s', runs s (e :: tr) s' ->
      match e with EvFetchMeta _ _ _ _ _ _ | EvPut _ => True | _ => False end -> runs s tr s'.

    Lemma runs_looks s raw t0 c tr s' : runs s (looks_up cfg raw t0 c ++ tr) s' -> runs s tr s'.
    Proof. destruct c; cbn [looks_up app]; auto; intros H; exact (runs_tail _ _ _ _ H I). Qed.

    Variable raw : bytes.
    Variable t0 : tuf.
    Hypothesis F : from_trusted_root E raw = Ok t0.
    Hypothesis L1 : fits_length (cf_max_root cfg) raw.
    Hypothesis L2 : length_ok u64_max raw.
    Notation n0 := (rm_version (t_root t0)).

    (** A start with the pinned root there. *)
    Lemma start_like fuel c m s tr q s' : pins E raw t0 c -> like s m -> lookup ("root", VNumber n0) m = Some raw ->
      exec (construct E cfg fuel c) tr q -> runs s tr s' ->
      c <> FromRoot raw /\ tr = [] /\ q = construct E cfg fuel c \/
      exists tr', tr = looks_up cfg raw t0 c ++ tr' /\ exec (construct E cfg fuel (FromRoot raw)) tr' q /\ runs s tr' s'.
    Proof.
      intros P Lk L X R.
      destruct (start_inv fuel c raw t0 tr q F P L1 L2 X) as [H|(tr' & -> & X')]; [|now left|].
      - intros mx h a tr' ->.
        (* every event so far is fine: only this first one matters *)
        assert (G : along (mem_rely m) [] (EvFetchMeta Local "root" (VNumber n0) mx h a :: tr')).
        { refine (proj1 (RM m s _ s' [] R Lk _)).
          intros e He. apply top_fine.
          assert (Wp : forall h, wp DTop (construct E cfg fuel c) (fun _ _ => True) h).
          { clear. intros h. destruct c as [|raw'|v th keys]; cbn [construct].
            - unfold with_trusted_local. eapply wp_seq; [apply wp_fetch_top|]. clear h. intros h [r|e] _; [|exact I].
              destruct (from_trusted_root E r); [|exact I]. cbn [wp]. intros _. split; [exact I|apply wp_new_top].
            - unfold with_trusted_root. destruct (from_trusted_root E raw'); [|exact I]. cbn [wp]. intros _. split; [exact I|apply wp_new_top].
            - unfold with_trusted_root_keys, fetch_metadata_from_local_or_else_remote.
              eapply (wp_seq DTop _ _ (fun _ _ => True)).
              { eapply wp_seq; [apply wp_fetch_top|]. clear h. intros h [r|[]] _; try exact I.
                eapply wp_seq; [apply wp_fetch_top|]. clear h. intros h [r|e] _; exact I. }
              clear h. intros h [[f r]|e] _; [|exact I]. destruct (from_root_with_trusted_keys E r th keys) as [t|e]; [|exact I].
              cbn [wp]. intros _. split; [exact I|]. destruct f; [|apply wp_new_top].
              eapply wp_seq; [apply wp_store_top; left; left; eauto|]. intros h2 [[]|e] _; [|exact I]. apply wp_new_top. }
          destruct (wp_sound DTop _ _ _ X _ _ (Wp []) (along_true _ _)) as [G _]. exact (along_in _ _ _ G e He). }
        apply along_cons in G as [G _]. cbn in G. rewrite (G ltac:(left; eauto)).
        unfold mem_answer. cbn [mem_at fold_left]. change (mem_at m []) with m. now rewrite L.
      - right. exists tr'. split; [reflexivity|]. split; [exact X'|]. exact (runs_looks _ _ _ _ _ _ R).
    Qed.

    Variable m0 : store.
    Hypothesis Top : forall n, n0 < n -> lookup ("root", VNumber n) m0 = None.
    Hypothesis Held : lookup ("root", VNumber n0) m0 = Some raw.

    Lemma sessions_hold fuel e0 tr t e : like e0 m0 -> sessions runs E cfg fuel raw e0 tr t e -> every_role ok tr ->
      (forall ev, In ev tr -> later_root n0 ev) /\ like e (mem_at m0 tr) /\
      lookup ("root", VNumber n0) (mem_at m0 tr) = Some raw.
    Proof.
      intros Lk Se Ro.
      assert (Q0 := from_trusted_shape _ _ _ F).
      assert (F' : from_trusted_root E raw = Ok (tuf_of_root (t_root t0))) by congruence.
      assert (K1 := sessions_K E cfg m0 (t_root t0) S runs ok like OK (RM m0) fuel raw).
      assert (La : forall ev, In ev tr -> later_root n0 ev).
      { assert (St : forall tr q, exec (construct E cfg fuel (FromRoot raw)) tr q -> forall ev, In ev tr -> later_root n0 ev).
        { intros tr1 q X ev H. apply (root_reads _ _ _ _ X) in H. destruct ev; cbn in *; tauto. }
        revert Ro. induction Se as [tr t e X Y|tr t e tr' t' r e' Se IH X Y|tr t e k tr' q e' Se IH Nk X Y
                                       |tr t e tr' t' e' Se IH X Y]; intros Ro ev Hev.
        - eapply St; eauto.
        - assert (Ro' := every_role_prefix _ _ _ Ro). apply in_app_iff in Hev as [Hev|Hev]; [now apply IH|].
          destruct (K1 _ _ _ _ F' Lk Top Se Ro') as [[_ HK] _].
          assert (Wp := wp_update_B n0 fuel t [] (roots_version E cfg _ _ _ (k_roots _ _ _ _ _ _ HK))).
          destruct (wp_sound _ _ _ _ X _ _ Wp (along_true _ _)) as [G _]. exact (along_in _ _ _ G ev Hev).
        - assert (Ro' := every_role_prefix _ _ _ Ro). apply in_app_iff in Hev as [Hev|Hev]; [now apply IH|].
          destruct (K1 _ _ _ _ F' Lk Top Se Ro') as [HK _].
          assert (Wp := wp_call_W E cfg fuel t k tr Nk (proj1 HK)).
          destruct (wp_sound (DW E) _ _ _ X _ _ Wp (along_true _ _)) as [G _].
          apply in_split in Hev as (pre & post & Q). specialize (G pre ev post Q).
          destruct ev; cbn; auto. cbn in G. destruct G as (-> & _). discriminate.
        - assert (Ro' := every_role_prefix _ _ _ Ro). apply in_app_iff in Hev as [Hev|Hev]; [now apply IH|].
          eapply St; eauto. }
      destruct (K1 _ _ _ _ F' Lk Top Se Ro) as [_ M]. split; [exact La|]. split; [exact M|].
      rewrite (mem_later _ n0 _ La); [exact Held|]. reflexivity.
    Qed.

    Lemma goes_on_sessions fuel e0 tr1 t e : like e0 m0 -> sessions runs E cfg fuel raw e0 tr1 t e ->
      forall tr t' e', goes_on runs E cfg fuel (pins E raw t0) t e tr t' e' -> every_role ok (tr1 ++ tr) ->
      exists tr', sessions runs E cfg fuel raw e0 (tr1 ++ tr') t' e' /\ same_puts tr tr'.
    Proof.
      intros Lk Se tr t' e'. induction 1 as [|tr t1 e1 tr' t2 r e2 _ IH X Y|tr t1 e1 k tr' q e2 _ IH Nk X Y
                                            |tr t1 e1 c tr' t2 e2 _ IH P X Y]; intros Ro.
      - exists []. rewrite app_nil_r. split; [exact Se|apply puts_self].
      - rewrite app_assoc in Ro. destruct (IH (every_role_prefix _ _ _ Ro)) as (tr2 & Se2 & P2).
        exists (tr2 ++ tr'). rewrite app_assoc. split; [eapply session_update; eauto|].
        apply puts_app; [exact P2|apply puts_self].
      - rewrite app_assoc in Ro. destruct (IH (every_role_prefix _ _ _ Ro)) as (tr2 & Se2 & P2).
        exists (tr2 ++ tr'). rewrite app_assoc. split; [eapply session_call; eauto|].
        apply puts_app; [exact P2|apply puts_self].
      - rewrite app_assoc in Ro. assert (Ro' := every_role_prefix _ _ _ Ro). destruct (IH Ro') as (tr2 & Se2 & P2).
        assert (Ro2 : every_role ok (tr1 ++ tr2)) by (eapply puts_every; [apply puts_app; [apply puts_self|exact P2]|exact Ro']).
        destruct (sessions_hold _ _ _ _ _ Lk Se2 Ro2) as (_ & M & H).
        destruct (start_like _ _ _ _ _ _ _ P M H X Y) as [(Nc & _ & Q)|(tr3 & -> & X3 & Y3)].
        + exfalso. destruct c as [|raw'|v th keys]; cbn in Q, P; try discriminate. now subst raw'.
        + exists (tr2 ++ tr3). rewrite app_assoc. split; [eapply session_next; eauto|].
          apply puts_app; [exact P2|apply puts_looks].
    Qed.

    Lemma other_sessions fuel e0 tr t e : sessions runs E cfg fuel raw e0 tr t e ->
      forall tr' t' e', other_calls runs E cfg fuel t e tr' t' e' -> sessions runs E cfg fuel raw e0 (tr ++ tr') t' e'.
    Proof.
      intros Se tr' t' e' O. revert tr Se. induction O as [t e|t e k tr1 q e1 tr2 t' e' Nk X Y _ IH]; intros tr Se;
        [now rewrite app_nil_r|].
      rewrite app_assoc. apply IH. eapply session_call; eauto.
    Qed.

    (** The first start, and what follows, as sessions. *)
    Lemma start_sessions fuel e0 c0 tr0 t e : like e0 m0 -> pins E raw t0 c0 ->
      exec (construct E cfg fuel c0) tr0 (Ret (Ok t)) -> runs e0 tr0 e ->
      forall tr t1 e1, goes_on runs E cfg fuel (pins E raw t0) t e tr t1 e1 -> every_role ok (tr0 ++ tr) ->
      exists tr', sessions runs E cfg fuel raw e0 tr' t1 e1 /\ same_puts (tr0 ++ tr) tr'.
    Proof.
      intros Lk P X Y tr t1 e1 G Ro.
      destruct (start_like _ _ _ _ _ _ _ P Lk Held X Y) as [(Nc & _ & Q)|(tr3 & -> & X3 & Y3)].
      { exfalso. destruct c0 as [|raw'|v th keys]; cbn in Q, P; try discriminate. now subst raw'. }
      assert (Q3 := puts_app _ _ _ _ (puts_looks raw t0 c0 tr3) (puts_self tr)).
      destruct (goes_on_sessions fuel e0 tr3 t e Lk (session_first _ _ _ _ _ _ _ _ _ X3 Y3) tr t1 e1 G) as (tr4 & Se & P4).
      { exact (puts_every _ _ _ Q3 Ro). }
      exists (tr3 ++ tr4). split; [exact Se|]. intros x. rewrite (Q3 x). exact (puts_app _ _ _ _ (puts_self tr3) P4 x).
    Qed.

    Lemma start_restores fuel fuel' e0 trS tS e1 trG tr1 t1 b e2 tr2 t2 e3 c tr3 q e4 :
      like e0 m0 -> sessions runs E cfg fuel raw e0 trS tS e1 -> same_puts trG trS ->
      exec (update E cfg fuel tS) tr1 (Ret (t1, Ok b)) -> runs e1 tr1 e2 ->
      other_calls runs E cfg fuel t1 e2 tr2 t2 e3 ->
      stable_descriptions (trG ++ tr1 ++ tr2) -> every_role ok (trG ++ tr1 ++ tr2) ->
      pins E raw t0 c -> exec (construct E cfg fuel' c) tr3 q -> runs e3 tr3 e4 ->
      (forall cl, In (EvNow cl) tr3 -> before_expiry t1 cl) ->
      q <> Panic /\ (forall r, q = Ret r -> exists t3, r = Ok t3 /\ same_trust t1 t3) /\
      (forall ev, In ev tr3 -> local_reading ev).
    Proof.
      intros Lk Se Pu X1 Y1 O2 Stb Ro P X3 Y3 B.
      assert (Pu' := puts_app _ _ _ _ Pu (puts_self (tr1 ++ tr2))).
      apply (puts_stable _ _ Pu') in Stb. apply (puts_every _ _ _ Pu') in Ro.
      assert (Se' : sessions runs E cfg fuel raw e0 ((trS ++ tr1) ++ tr2) t2 e3).
      { eapply other_sessions; [|exact O2]. eapply session_update; eauto. }
      assert (Ro' := Ro). rewrite app_assoc in Ro'. destruct (sessions_hold _ _ _ _ _ Lk Se' Ro') as (_ & M & H).
      destruct (start_like _ _ _ _ _ _ _ P M H X3 Y3) as [(Nc & -> & ->)|(tr4 & -> & X4 & Y4)].
      - split; [|split].
        + destruct c as [|raw'|v th keys]; cbn; try discriminate. cbn in P. now subst raw'.
        + intros r Q. exfalso. destruct c as [|raw'|v th keys]; cbn in Q, P; try discriminate. now subst raw'.
        + intros ev [].
      - destruct (restart_restores S runs ok like OK RM E cfg fuel fuel' raw t0 m0 e0 trS tS e1 tr1 t1 b e2 tr2 t2 e3 tr4 q e4
                    F Lk Top Se X1 Y1 O2 Stb Ro X4 Y4) as [H1 H2].
        { intros cl Hc. apply B. apply in_app_iff. now right. }
        split; [exact H1|]. split; [exact H2|]. intros ev Hev. apply in_app_iff in Hev as [Hev|Hev].
        + destruct c; cbn in Hev; try tauto; destruct Hev as [<-|[]]; exact I.
        + exact (root_reads _ _ _ _ X4 ev Hev).
    Qed.

    Lemma start_keeps fuel fuel' e0 trS tS e1 trG c tr3 q e4 :
      like e0 m0 -> sessions runs E cfg fuel raw e0 trS tS e1 -> same_puts trG trS -> every_role ok trG ->
      rm_version (t_root tS) < u32_max ->
      pins E raw t0 c -> exec (construct E cfg fuel' c) tr3 q -> runs e1 tr3 e4 ->
      (forall cl, In (EvNow cl) tr3 -> in_time tS cl) ->
      q <> Panic /\ (forall r, q = Ret r -> exists t3, r = Ok t3 /\ t_root t3 = t_root tS /\
        (t_timestamp tS <> None -> t_timestamp t3 = t_timestamp tS)) /\
      (forall ev, In ev tr3 -> local_reading ev).
    Proof.
      intros Lk Se Pu Ro Sm P X3 Y3 B. apply (puts_every _ _ _ Pu) in Ro.
      destruct (sessions_hold _ _ _ _ _ Lk Se Ro) as (_ & M & H).
      destruct (start_like _ _ _ _ _ _ _ P M H X3 Y3) as [(Nc & -> & ->)|(tr4 & -> & X4 & Y4)].
      - split; [|split].
        + destruct c as [|raw'|v th keys]; cbn; try discriminate. cbn in P. now subst raw'.
        + intros r Q. exfalso. destruct c as [|raw'|v th keys]; cbn in Q, P; try discriminate. now subst raw'.
        + intros ev [].
      - destruct (restart_keeps S runs ok like OK RM E cfg fuel fuel' raw t0 m0 e0 trS tS e1 tr4 q e4
                    F Lk Top Se Ro Sm X4 Y4) as [H1 H2].
        { intros cl Hc. apply B. apply in_app_iff. now right. }
        split; [exact H1|]. split; [exact H2|]. intros ev Hev. apply in_app_iff in Hev as [Hev|Hev].
        + destruct c; cbn in Hev; try tauto; destruct Hev as [<-|[]]; exact I.
        + exact (root_reads _ _ _ _ X4 ev Hev).
    Qed.
  End Runs.

  (** ** Root keys, the root not being there yet *)

  Lemma keys_fetch fuel v th keys tr t : faithful (e_ic E) ->
    exec (construct E cfg fuel (FromKeys v th keys)) tr (Ret (Ok t)) ->
    (forall a tr', tr = EvFetchMeta Local "root" v (cf_max_root cfg) None a :: tr' -> a = Err NotFound) ->
    exists raw t0 rs tr',
      tr = EvFetchMeta Local "root" v (cf_max_root cfg) None (Err NotFound) ::
           EvFetchMeta Remote "root" v (cf_max_root cfg) None (Ok rs) :: EvPut t0 ::
           EvStoreMeta "root" (VNumber (rm_version (t_root t0))) raw (Ok tt) :: tr' /\
      contains rs raw None /\ fits_length (cf_max_root cfg) raw /\ length_ok u64_max raw /\
      from_root_with_trusted_keys E raw th keys = Ok t0 /\ from_trusted_root E raw = Ok t0 /\
      exec (construct E cfg fuel (FromRoot raw)) (EvPut t0 :: tr') (Ret (Ok t)).
  Proof.
    intros Fa X A. cbn [construct] in X. unfold with_trusted_root_keys, fetch_metadata_from_local_or_else_remote, fetch_metadata in X.
    cbn in X. inversion X as [|? ? ? ? ? k ans tr1 q' X1 Q1 Q2 Q3| | | | | |]; subst. clear X.
    specialize (A _ _ eq_refl). subst ans. cbn in X1.
    inversion X1 as [|? ? ? ? ? k ans tr2 q' X2 Q1 Q2 Q3| | | | | |]; subst. clear X1.
    destruct (read_metadata C (cf_max_root cfg) None ans) as [raw|e] eqn:Rd; cbn in X2; [|inversion X2].
    destruct (from_root_with_trusted_keys E raw th keys) as [t0|e] eqn:Fk; cbn in X2; [|inversion X2].
    inversion X2 as [| | | | | | |t1 p tr3 q' X3 Q1 Q2 Q3]; subst. clear X2.
    inversion X3 as [| |? ? ? k ans' tr4 q' X4 Q1 Q2 Q3| | | | |]; subst. clear X3.
    destruct ans' as [[]|e]; [|inversion X4].
    destruct (read_metadata_ok _ _ _ _ _ Rd) as ((rs & -> & Ct) & Ft & _).
    assert (Lu : length_ok u64_max raw).
    { unfold read_metadata in Rd. cbn [rbind safe_new] in Rd. apply (read_to_end_ok C _ None _ _ _ eq_refl) in Rd as (_ & _ & Lu & _). exact Lu. }
    assert (Ft' := keys_are_root _ _ _ _ _ Fa Fk).
    exists raw, t0, rs, tr4. split; [reflexivity|]. split; [exact Ct|]. split; [exact Ft|]. split; [exact Lu|].
    split; [exact Fk|]. split; [exact Ft'|]. cbn [construct]. unfold with_trusted_root. rewrite Ft'. constructor. exact X4.
  Qed.

  Lemma keys_found fuel v th keys tr t raw : faithful (e_ic E) ->
    exec (construct E cfg fuel (FromKeys v th keys)) tr (Ret (Ok t)) ->
    (forall a tr', tr = EvFetchMeta Local "root" v (cf_max_root cfg) None a :: tr' -> a = Ok (cursor raw)) ->
    exists t0 tr', tr = EvFetchMeta Local "root" v (cf_max_root cfg) None (Ok (cursor raw)) :: tr' /\
      fits_length (cf_max_root cfg) raw /\ length_ok u64_max raw /\
      from_root_with_trusted_keys E raw th keys = Ok t0 /\ from_trusted_root E raw = Ok t0 /\
      exec (construct E cfg fuel (FromRoot raw)) tr' (Ret (Ok t)).
  Proof.
    intros Fa X A. cbn [construct] in X. unfold with_trusted_root_keys, fetch_metadata_from_local_or_else_remote, fetch_metadata in X.
    cbn in X. inversion X as [|? ? ? ? ? k ans tr1 q' X1 Q1 Q2 Q3| | | | | |]; subst. clear X.
    specialize (A _ _ eq_refl). subst ans.
    destruct (read_metadata C (cf_max_root cfg) None (Ok (cursor raw))) as [raw'|e] eqn:Rd.
    2:{ exfalso. assert (Ne : e <> NotFound).
        { intros ->. unfold read_metadata in Rd. cbn [rbind safe_new] in Rd.
          assert (Sp := read_to_end_spec C (option_get u64_max (cf_max_root cfg)) None _ _ _ _ eq_refl (contains_cursor raw)).
          rewrite Rd in Sp. destruct Sp as [(_ & Q)|(_ & _ & [(_ & Q)|(_ & Q)])]; discriminate. }
        destruct e; cbn in X1; try (inversion X1; fail). congruence. }
    assert (raw' = raw) as -> by (eapply read_cursor_fun; eauto). cbn in X1.
    destruct (from_root_with_trusted_keys E raw th keys) as [t0|e] eqn:Fk; cbn in X1; [|inversion X1].
    assert (Ft' := keys_are_root _ _ _ _ _ Fa Fk).
    destruct (read_metadata_ok _ _ _ _ _ Rd) as (_ & Ft & _).
    assert (Lu : length_ok u64_max raw).
    { unfold read_metadata in Rd. cbn [rbind safe_new] in Rd. apply (read_to_end_ok C _ None _ _ _ eq_refl) in Rd as (_ & _ & Lu & _). exact Lu. }
    exists t0, tr1. split; [reflexivity|]. split; [exact Ft|]. split; [exact Lu|]. split; [auto|]. split; [exact Ft'|].
    cbn [construct]. unfold with_trusted_root. rewrite Ft'. exact X1.
  Qed.
End Start.
