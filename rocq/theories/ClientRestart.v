(** * Proofs about restarts: C49 *)
From Coq Require Import String List NArith ZArith Bool Lia.
From Verif Require Import Base BaseFacts Metadata StringFacts Verify Paths Tuf SpecVerify SpecTuf TufProofs TufHistory
     Reader SpecReader ReaderProofs Repo Client SpecClient SpecRestart ClientLogic ClientProofs ClientUpdates.
Import ListNotations.
Open Scope string_scope.
Open Scope list_scope.
Open Scope N_scope.
Local Arguments insert : simpl never.
Local Arguments lookup : simpl never.

Notation store := (list ((string * meta_version) * bytes)).

(** The metadata in the memory after some events, [m0] before. *)
Definition meta_event (m : store) (ev : event) : store :=
  match ev with EvStoreMeta p v d _ => insert (p, v) d m | _ => m end.
Definition mem_at (m0 : store) (h : list event) : store := fold_left meta_event h m0.

Lemma mem_at_snoc m0 h e : mem_at m0 (h ++ [e]) = meta_event (mem_at m0 h) e.
Proof. unfold mem_at. now rewrite fold_left_app. Qed.

Definition mem_answer (m : store) (p : string) (v : meta_version) : result stream :=
  match lookup (p, v) m with Some b => Ok (cursor b) | None => Err NotFound end.

(** What is read when a client starts, and what [update] stores. *)
Definition cached (p : string) (v : meta_version) : Prop :=
  (exists n, p = "root" /\ v = VNumber n) \/ v = VNone /\ In p ["timestamp"; "snapshot"; "targets"].
Definition top_store (p : string) (v : meta_version) : Prop := cached p v \/ p = "root" /\ v = VNone.

Definition mem_rely (m0 : store) (h : list event) (ev : event) : Prop :=
  match ev with
  | EvFetchMeta Local p v _ _ ans => cached p v -> ans = mem_answer (mem_at m0 h) p v
  | EvStoreMeta p v _ ans => top_store p v -> ans = Ok tt
  | _ => True
  end.

Lemma contains_cursor b : contains (cursor b) b None.
Proof.
  unfold cursor. destruct (string_dec b "") as [->|N]; [constructor|].
  rewrite <- (sapp_nil_r b) at 2. constructor; [exact N|constructor].
Qed.

Lemma store_cursor e p v d : ephemeral_store_metadata e p v (cursor d) =
  (mkEphemeral (insert (p, v) d (ep_metadata e)) (ep_targets e), Ok tt).
Proof. unfold ephemeral_store_metadata. now rewrite (proj2 (read_plain_iff (cursor d) d) (contains_cursor d)). Qed.

Lemma in_memory_mem e tr e' : in_memory e tr e' -> forall m0 h, ep_metadata e = mem_at m0 h ->
  along (mem_rely m0) h tr /\ ep_metadata e' = mem_at m0 (h ++ tr).
Proof.
  induction 1 as [e|e ev e1 tr e2 S _ IH]; intros m0 h M; [rewrite app_nil_r; split; [apply along_nil|exact M]|].
  assert (M1 : ep_metadata e1 = mem_at m0 (h ++ [ev]) /\ mem_rely m0 h ev).
  { rewrite mem_at_snoc, <- M. destruct ev as [s p v mx hs a|p v d a|p d a|p rs a|b a|c|t]; cbn in S |- *;
      try (subst; auto; fail).
    - destruct s; [destruct S as [-> ->]|subst]; auto. split; auto. intros _.
      unfold ephemeral_fetch_metadata, mem_answer. now rewrite M.
    - rewrite store_cursor in S. inversion S; subst. auto.
    - unfold ephemeral_store_target in S. destruct (read_plain rs ""); inversion S; subst; auto. }
  destruct M1 as [M1 R]. destruct (IH m0 _ M1) as [A B]. rewrite <- app_assoc in B. rewrite along_cons. auto.
Qed.

Lemma reread C max hash ans raw : read_metadata C max hash ans = Ok raw ->
  read_metadata C max hash (Ok (cursor raw)) = Ok raw.
Proof.
  unfold read_metadata. intros H. apply rbind_Ok in H as (rs & -> & H). apply rbind_Ok in H as (s & S & H).
  cbn [rbind]. rewrite S. cbn [rbind]. apply (read_to_end_ok C _ _ _ _ _ S).
  apply (read_to_end_ok C _ _ _ _ _ S) in H as (_ & H). split; [apply contains_cursor|exact H].
Qed.
Lemma read_cursor_fun C max hash a raw : read_metadata C max hash (Ok (cursor a)) = Ok raw -> raw = a.
Proof.
  intros H. apply read_metadata_ok in H as ((rs & Q & A) & _). inversion Q; subst.
  now destruct (contains_fun _ _ _ A _ _ (contains_cursor a)) as [-> _].
Qed.

Lemma trusted_in h t : trusted_at h = Some t -> In (EvPut t) h.
Proof.
  induction h as [|e h IH] using rev_ind; [discriminate|]. rewrite trusted_at_snoc, in_app_iff. cbn.
  destruct e; intros H; try (left; now apply IH). inversion H; subst. auto.
Qed.

Lemma stable_prefix a b : stable_descriptions (a ++ b) -> stable_descriptions a.
Proof.
  intros [S1 S2]. split.
  - intros t1 t2 ts1 ts2 I1 I2. apply S1; apply in_app_iff; auto.
  - intros t1 t2 s1 s2 d1 d2 I1 I2. apply S2; apply in_app_iff; auto.
Qed.
Lemma no_role_every tr : no_role_named "timestamp" tr -> no_role_named "targets" tr ->
  every_role (fun n => n <> "timestamp" /\ n <> "targets") tr.
Proof. intros N1 N2 t tg ds d I K Q D. split; [exact (N1 t tg ds d I K Q D)|exact (N2 t tg ds d I K Q D)]. Qed.
Lemma every_role_prefix ok a b : every_role ok (a ++ b) -> every_role ok a.
Proof. intros S t tg ds d I. apply (S t). apply in_app_iff. auto. Qed.

Section Restart.
  Variable E : env.
  Variable cfg : config.
  Notation C := (e_crypto E).

  Definition readable (max : option N) (raw : bytes) : Prop :=
    read_metadata C max None (Ok (cursor raw)) = Ok raw.
  Definition readable_as (d : meta_desc) (raw : bytes) : Prop :=
    exists hash, hash_preference (md_hashes d) = Ok hash /\
      read_metadata C (Some (md_length d)) (Some hash) (Ok (cursor raw)) = Ok raw.

  (** The memory leads from one root to another. *)
  Inductive roots_from (m : store) : root_metadata -> root_metadata -> Prop :=
  | roots_here r : roots_from m r r
  | roots_next r1 r2 r3 raw :
      lookup ("root", VNumber (rm_version r1 + 1)) m = Some raw -> readable (cf_max_root cfg) raw ->
      root_step E r1 raw r2 -> roots_from m r2 r3 -> roots_from m r1 r3.

  Lemma roots_version m r1 r2 : roots_from m r1 r2 -> rm_version r1 <= rm_version r2.
  Proof. induction 1 as [|r1 r2 r3 raw _ _ (_ & _ & S & _) _ IH]; lia. Qed.
  Lemma roots_snoc m r1 r2 : roots_from m r1 r2 -> forall raw r3,
    lookup ("root", VNumber (rm_version r2 + 1)) m = Some raw -> readable (cf_max_root cfg) raw ->
    root_step E r2 raw r3 -> roots_from m r1 r3.
  Proof.
    induction 1 as [r|r1 r2 r3 raw L R S _ IH]; intros raw' r4 L' R' S'.
    - eapply roots_next; eauto. constructor.
    - eapply roots_next; eauto.
  Qed.
  Lemma roots_frame m m' r1 r2 : roots_from m r1 r2 ->
    (forall n, n <= rm_version r2 -> lookup ("root", VNumber n) m' = lookup ("root", VNumber n) m) ->
    roots_from m' r1 r2.
  Proof.
    induction 1 as [r|r1 r2 r3 raw L R S X IH]; intros F; [constructor|].
    eapply roots_next; eauto. rewrite F; [exact L|].
    apply roots_version in X. destruct S as (_ & _ & S & _). lia.
  Qed.

  (** What the memory [m] knows of the trusted metadata [t]; [P] are those trusted so far. *)
  Record kept (r0 : root_metadata) (m : store) (P : tuf -> Prop) (t : tuf) : Prop := {
    k_put : P t;
    k_inv : inv E t;
    k_roots : roots_from m r0 (t_root t);
    k_top : forall n, rm_version (t_root t) < n -> lookup ("root", VNumber n) m = None;
    k_ts : forall ts, t_timestamp t = Some ts -> exists raw,
      lookup ("timestamp", VNone) m = Some raw /\ readable (cf_max_timestamp cfg) raw /\
      trusted_by E (t_root t) Timestamp raw ts;
    k_sn : forall s, t_snapshot t = Some s -> exists raw t1 ts1,
      lookup ("snapshot", VNone) m = Some raw /\ trusted_by E (t_root t) Snapshot raw s /\
      P t1 /\ t_timestamp t1 = Some ts1 /\ md_version (tm_snapshot ts1) = sm_version s /\
      readable_as (tm_snapshot ts1) raw;
    k_tg : forall g, t_targets t = Some g -> exists raw t1 s1 d,
      lookup ("targets", VNone) m = Some raw /\ trusted_by E (t_root t) Targets raw g /\
      P t1 /\ t_snapshot t1 = Some s1 /\ lookup "targets" (sm_meta s1) = Some d /\
      md_version d = tg_version g /\ readable_as d raw
  }.

  Lemma kept_more r0 m (P P' : tuf -> Prop) t : kept r0 m P t -> (forall x, P x -> P' x) -> kept r0 m P' t.
  Proof.
    intros [] H. constructor; auto.
    - intros s Q. destruct (k_sn0 s Q) as (raw & t1 & ts1 & A & B & X & R). exists raw, t1, ts1. auto.
    - intros g Q. destruct (k_tg0 g Q) as (raw & t1 & s1 & d & A & B & X & R). exists raw, t1, s1, d. auto.
  Qed.

  (** Stores elsewhere do not matter. *)
  Lemma kept_store r0 m P t p v d : kept r0 m P t ->
    (forall n, (p, v) <> ("root", VNumber n)) -> (p, v) <> ("timestamp", VNone) ->
    (p, v) <> ("snapshot", VNone) -> (p, v) <> ("targets", VNone) -> kept r0 (insert (p, v) d m) P t.
  Proof.
    intros [] N1 N2 N3 N4.
    assert (L : forall k, (p, v) <> k -> lookup k (insert (p, v) d m) = lookup k m)
      by (intros k N; apply lookup_insert_neq; congruence).
    constructor; auto.
    - eapply roots_frame; [exact k_roots0|]. intros n _. apply L, N1.
    - intros n H. rewrite L by apply N1. auto.
    - intros ts Q. rewrite L by exact N2. auto.
    - intros s Q. rewrite L by exact N3. auto.
    - intros g Q. rewrite L by exact N4. auto.
  Qed.

  Variable m0 : store.
  Variable r0 : root_metadata.

  Definition puts (h : list event) (t : tuf) : Prop := In (EvPut t) h.

  (** The invariant: [t] is trusted after events [h], and the memory knows. *)
  Definition K (h : list event) (t : tuf) : Prop :=
    trusted_at h = Some t /\ kept r0 (mem_at m0 h) (puts h) t.

  Lemma puts_snoc h e t : puts h t -> puts (h ++ [e]) t.
  Proof. intros H. apply in_app_iff. auto. Qed.

  Definition calm (e : event) : Prop :=
    match e with EvPut _ | EvStoreMeta _ _ _ _ => False | _ => True end.

  Lemma K_calm h t e : K h t -> calm e -> K (h ++ [e]) t.
  Proof.
    intros [T H] Ce. split; [destruct e; rewrite trusted_at_snoc; cbn in Ce; tauto|].
    rewrite mem_at_snoc. replace (meta_event _ e) with (mem_at m0 h) by (destruct e; cbn in Ce; tauto).
    eapply kept_more; [exact H|]. intros x. apply puts_snoc.
  Qed.

  Lemma K_store h t p v d ans : K h t ->
    (forall n, (p, v) <> ("root", VNumber n)) -> (p, v) <> ("timestamp", VNone) ->
    (p, v) <> ("snapshot", VNone) -> (p, v) <> ("targets", VNone) -> K (h ++ [EvStoreMeta p v d ans]) t.
  Proof.
    intros [T H] N1 N2 N3 N4. split; [now rewrite trusted_at_snoc|]. rewrite mem_at_snoc. cbn [meta_event].
    apply kept_store; auto. eapply kept_more; [exact H|]. intros x. apply puts_snoc.
  Qed.

  (** A new value with the same top-level metadata, or fewer. *)
  Lemma K_put_same h t t' : K h t -> inv E t' -> t_root t' = t_root t ->
    (t_timestamp t' = t_timestamp t \/ t_timestamp t' = None) ->
    (t_snapshot t' = t_snapshot t \/ t_snapshot t' = None) ->
    (t_targets t' = t_targets t \/ t_targets t' = None) -> K (h ++ [EvPut t']) t'.
  Proof.
    intros [T H] I HR HT HS HG. split; [now rewrite trusted_at_snoc|]. rewrite mem_at_snoc. cbn [meta_event].
    apply (kept_more _ _ _ (puts (h ++ [EvPut t']))) in H; [|intros x; apply puts_snoc]. destruct H.
    constructor; rewrite ?HR; auto.
    - apply in_app_iff. right. now left.
    - intros ts Q. destruct HT as [HT|HT]; rewrite HT in Q; [auto|discriminate].
    - intros s Q. destruct HS as [HS|HS]; rewrite HS in Q; [auto|discriminate].
    - intros g Q. destruct HG as [HG|HG]; rewrite HG in Q; [auto|discriminate].
  Qed.

  Section Programs.
    Variable D : demands.
    Hypothesis D_rely : forall h e, rely D h e -> mem_rely m0 h e.
    Hypothesis D_guar : forall h e, guar D h e.
    Hypothesis D_fuel : on_fuel D.

    (** A request, and its answer if it was made of the memory. *)
    Lemma wp_fetch_mem s r path v max hash (Q : list event -> result bytes -> Prop) h :
      repo_check r path = Ok tt ->
      (forall ans, rely D h (EvFetchMeta s path v max hash ans) ->
         (s = Local -> cached path v -> ans = mem_answer (mem_at m0 h) path v) ->
         Q (h ++ [EvFetchMeta s path v max hash ans]) (read_metadata C max hash ans)) ->
      wp D (fetch_metadata E s r path v max hash) Q h.
    Proof.
      intros HC H. unfold fetch_metadata. rewrite HC. cbn. intros ans R. split; [apply D_guar|].
      apply H; auto. intros ->. exact (D_rely _ _ R).
    Qed.

    (** The cached roots are all accepted. *)
    Lemma wp_roots_local fuel : forall r rtop updated h t, t = tuf_of_root r ->
      (forall h, on_panic D h) \/ rm_version rtop < u32_max ->
      trusted_at h = Some t -> roots_from (mem_at m0 h) r rtop ->
      (forall n, rm_version rtop < n -> lookup ("root", VNumber n) (mem_at m0 h) = None) ->
      wp D (root_loop E cfg fuel Local false t updated)
         (fun h' x => mem_at m0 h' = mem_at m0 h /\ fst x = tuf_of_root rtop /\ trusted_at h' = Some (fst x) /\
                      exists u, snd x = Ok u) h.
    Proof.
      induction fuel as [|fuel IH]; intros r rtop updated h t -> HP T RF Top; [exact D_fuel|]. cbn [root_loop].
      change (t_root (tuf_of_root r)) with r.
      destruct (N.leb_spec u32_max (rm_version r)) as [G|G].
      { apply roots_version in RF. destruct HP as [HP|HP]; [apply HP|lia]. }
      eapply wp_seq; [apply (wp_fetch_mem _ _ _ _ _ _
        (fun h' res => mem_at m0 h' = mem_at m0 h /\ trusted_at h' = Some (tuf_of_root r) /\
           res = read_metadata C (cf_max_root cfg) None
                   (mem_answer (mem_at m0 h) "root" (VNumber (rm_version r + 1))))); [reflexivity|]|].
      { intros ans _ A. rewrite A; [|reflexivity|left; eauto]. split; [now rewrite mem_at_snoc|]. split; [now rewrite trusted_at_snoc|]. reflexivity. }
      intros h' res (M & T' & ->). unfold mem_answer. inversion RF as [r' Q1 Q2|r1 r2 r3 raw L R S RF']; subst.
      - rewrite Top by lia. cbn. rewrite M. eauto 10.
      - rewrite L. unfold readable in R. rewrite R.
        destruct (update_root E (tuf_of_root r) raw) as [t' res] eqn:U.
        assert (U' : update_root E (tuf_of_root r) raw = (mkTuf r2 None None None [], Ok tt)).
        { apply update_root_ok. eauto. }
        rewrite U' in U. inversion U; subst. cbn [wp]. intros _. split; [apply D_guar|].
        eapply wp_mono; [|apply (IH r2 rtop true (h' ++ [EvPut (mkTuf r2 None None None [])]))];
          rewrite ?mem_at_snoc; cbn [meta_event]; rewrite ?M; auto.
        now rewrite trusted_at_snoc.
    Qed.

    Hypothesis D_panic : forall h, on_panic D h.

    Definition Kp {A} : list event -> tuf * A -> Prop := fun h x => K h (fst x).

    (** The roots of the remote repository are stored. *)
    Lemma wp_roots_remote fuel : forall t updated h, K h t ->
      wp D (root_loop E cfg fuel Remote true t updated)
         (fun h' x => K h' (fst x) /\ (forall u, snd x = Ok u -> rm_version (t_root (fst x)) < u32_max)) h.
    Proof.
      induction fuel as [|fuel IH]; intros t updated h HK; [exact D_fuel|]. cbn [root_loop].
      destruct (N.leb_spec u32_max (rm_version (t_root t))) as [G|G]; [apply D_panic|].
      eapply wp_seq; [apply (wp_fetch_mem _ _ _ _ _ _
        (fun h' res => K h' t /\ forall raw, res = Ok raw -> readable (cf_max_root cfg) raw)); [reflexivity|]|].
      { intros ans _ _. split; [now apply K_calm|]. intros raw R. exact (reread _ _ _ _ _ R). }
      clear h HK. intros h [raw|e] [HK HR].
      2:{ destruct e; cbn [wp fst snd]; split; auto; discriminate. }
      specialize (HR raw eq_refl).
      destruct (update_root E t raw) as [t' [[]|e]] eqn:U; cbn [wp]; intros _; (split; [apply D_guar|]).
      2:{ apply update_root_err in U. subst. cbn [wp fst snd]. split; [|discriminate].
          apply (K_put_same h t); auto. destruct HK as [_ HK]. apply HK. }
      apply update_root_ok in U as (new & S & ->).
      assert (SV : rm_version new = rm_version (t_root t) + 1) by apply S.
      unfold store_metadata. cbn [repo_check fuzzy_matches_path from_role role_name String.eqb Ascii.eqb Bool.eqb negb bind wp].
      intros a1 R1. split; [apply D_guar|]. apply D_rely in R1. rewrite R1 by (right; auto).
      cbn [wp]. intros a2 R2. split; [apply D_guar|]. apply D_rely in R2. rewrite R2 by (left; left; eauto).
      apply IH. destruct HK as [T HK]. split; [now rewrite !trusted_at_snoc|].
      rewrite !mem_at_snoc. cbn [meta_event]. set (m := mem_at m0 h) in *.
      apply (kept_store _ _ _ _ "root" VNone raw) in HK; try (intros; congruence).
      set (m1 := insert ("root", VNone) raw m) in *.
      apply (kept_more _ _ _ (puts (((h ++ [EvPut (mkTuf new None None None [])]) ++
         [EvStoreMeta "root" VNone raw (Ok tt)]) ++
         [EvStoreMeta "root" (VNumber (rm_version (t_root t) + 1)) raw (Ok tt)]))) in HK.
      2:{ intros x Hx. now do 3 apply puts_snoc. }
      destruct HK. constructor; cbn [t_root t_timestamp t_snapshot t_targets]; try discriminate.
      - do 2 apply puts_snoc. apply in_app_iff. right. now left.
      - apply inv_root_only.
      - eapply roots_snoc.
        + eapply roots_frame; [exact k_roots0|]. intros n Hn. apply lookup_insert_neq. intros Q. inversion Q. lia.
        + apply lookup_insert_eq.
        + exact HR.
        + exact S.
      - intros n Hn. rewrite lookup_insert_neq; [apply k_top0; lia|]. intros Q. inversion Q. lia.
    Qed.

    Lemma wp_root_remote fuel t h : K h t ->
      wp D (update_root_with_repos E cfg fuel Remote true t)
         (fun h' x => K h' (fst x) /\ (forall u, snd x = Ok u -> rm_version (t_root (fst x)) < u32_max)) h.
    Proof.
      intros HK. unfold update_root_with_repos. eapply wp_seq; [now apply wp_roots_remote|].
      clear h t HK. intros h [t [u|e]] [HK HV]; cbn [fst snd] in *; [|cbn; split; [exact HK|discriminate]].
      cbn [wp]. intros c _. split; [apply D_guar|]. destruct (expired _ _); cbn; (split; [now apply K_calm|]); eauto.
    Qed.

    (** What a fetch for an update gives. *)
    Lemma wp_fetch_K s r path v max hash h t : repo_check r path = Ok tt -> K h t ->
      wp D (fetch_metadata E s r path v max hash)
        (fun h' res => K h' t /\ forall raw, res = Ok raw ->
           read_metadata C max hash (Ok (cursor raw)) = Ok raw /\
           (s = Local -> cached path v -> lookup (path, v) (mem_at m0 h') = Some raw)) h.
    Proof.
      intros HC HK. apply wp_fetch_mem; [exact HC|]. intros ans _ A. split; [now apply K_calm|].
      intros raw R. split; [exact (reread _ _ _ _ _ R)|]. intros L Ca. rewrite mem_at_snoc. cbn [meta_event].
      rewrite (A L Ca) in R. unfold mem_answer in R. destruct (lookup (path, v) (mem_at m0 h)) as [b|] eqn:Lk.
      - apply read_cursor_fun in R. now subst.
      - discriminate.
    Qed.

    (** The end of an update: storing what has been accepted, or nothing if it is there. *)
    Lemma wp_keep (persist : bool) r path raw t' h :
      repo_check r path = Ok tt -> cached path VNone ->
      (persist = true \/ lookup (path, VNone) (mem_at m0 h) = Some raw) ->
      (forall b : bool, (b = false -> lookup (path, VNone) (mem_at m0 h) = Some raw) ->
         K (h ++ [EvPut t'] ++ (if b then [EvStoreMeta path VNone raw (Ok tt)] else [])) t') ->
      wp D (if persist then do r1 <- store_metadata r path VNone raw in
             match r1 with Err e => Ret (t', Err e) | Ok _ => Ret (t', Ok true) end
           else Ret (t', Ok true)) (fun h x => K h t' /\ fst x = t' /\ snd x = Ok true) (h ++ [EvPut t']).
    Proof.
      intros HC Ca HP H. destruct persist.
      - unfold store_metadata. rewrite HC. cbn [bind wp]. intros ans R. split; [apply D_guar|].
        apply D_rely in R. rewrite R in * by (left; exact Ca). cbn. split; auto. rewrite <- app_assoc. apply (H true). discriminate.
      - destruct HP as [HP|HP]; [discriminate|]. cbn. split; auto. exact (H false (fun _ => HP)).
    Qed.

    Lemma puts_here h t' rest : puts (h ++ [EvPut t'] ++ rest) t'.
    Proof. apply in_app_iff. right. now left. Qed.
    Lemma puts_app h h' t : puts h t -> puts (h ++ h') t.
    Proof. intros H. apply in_app_iff. auto. Qed.

    (** Accepted metadata [t'] whose document is stored. *)
    Lemma kept_now h t t' path raw (stored : bool) : K h t -> inv E t' -> t_root t' = t_root t ->
      (stored = false -> lookup (path, VNone) (mem_at m0 h) = Some raw) ->
      let h' := h ++ [EvPut t'] ++ (if stored then [EvStoreMeta path VNone raw (Ok tt)] else []) in
      (forall m, lookup (path, VNone) m = Some raw ->
         (forall k, k <> (path, VNone) -> lookup k m = lookup k (mem_at m0 h)) ->
         kept r0 (mem_at m0 h) (puts h') t -> kept r0 m (puts h') t') ->
      K h' t'.
    Proof.
      intros [T HK] I HR HS h' H. split.
      - unfold h'. rewrite app_assoc, trusted_at_app, trusted_at_snoc. destruct stored; reflexivity.
      - apply H.
        + unfold h'. rewrite app_assoc. destruct stored.
          * rewrite mem_at_snoc. cbn [meta_event]. apply lookup_insert_eq.
          * rewrite app_nil_r, mem_at_snoc. cbn [meta_event]. auto.
        + intros k Nk. unfold h'. rewrite app_assoc. destruct stored.
          * rewrite !mem_at_snoc. cbn [meta_event]. now apply lookup_insert_neq.
          * now rewrite app_nil_r, mem_at_snoc.
        + eapply kept_more; [exact HK|]. intros x. apply puts_app.
    Qed.

    Lemma wp_timestamp s persist t h : persist = true \/ s = Local -> K h t ->
      wp D (update_timestamp_with_repos E cfg s persist t)
         (fun h' x => K h' (fst x) /\ t_root (fst x) = t_root t) h.
    Proof.
      intros HP HK. unfold update_timestamp_with_repos. eapply wp_seq; [apply (wp_fetch_K _ _ _ _ _ _ _ t); [reflexivity|exact HK]|].
      clear h HK. intros h [raw|e] [HK HF]; [|now split]. destruct (HF raw eq_refl) as [Rd Lk].
      cbn [wp]. intros c _. split; [apply D_guar|]. apply (K_calm h t (EvNow c)) in HK; [|exact I].
      replace (mem_at m0 h) with (mem_at m0 (h ++ [EvNow c])) in Lk by (now rewrite mem_at_snoc).
      set (h1 := h ++ [EvNow c]) in *. clearbody h1. clear h HF.
      destruct (update_timestamp E t c raw) as [t' res] eqn:U.
      assert (I' : inv E t').
      { pose proof (step_inv E t (OpTimestamp c raw)) as S. cbn in S. rewrite U in S. apply S. destruct HK as [_ HK]. apply HK. }
      apply update_timestamp_inv in U as (HR & HG & HD & HS & U). cbn [wp]. intros _. split; [apply D_guar|].
      destruct res as [[new|]|e].
      - destruct U as ((Tr & Lt & F) & Hts & Hs).
        eapply wp_mono; [|apply (wp_keep persist Timestamp "timestamp" raw t' h1); [reflexivity|right; cbn; tauto|..]].
        + intros h' x (H1 & H2 & _). rewrite H2. auto.
        + destruct HP as [HP|HP]; [auto|right; apply Lk; [exact HP|right; cbn; tauto]].
        + intros b Hb. apply (kept_now h1 t t' "timestamp" raw b); auto.
          intros m Lm Fm []. constructor; rewrite ?HR; auto.
          * apply puts_here.
          * eapply roots_frame; [exact k_roots0|]. intros n _. apply Fm. congruence.
          * intros n Hn. rewrite Fm by congruence. auto.
          * intros ts Q. rewrite Hts in Q. inversion Q; subst. exists raw. auto.
          * intros sn Q. rewrite Fm by congruence. apply k_sn0. destruct HS as [HS|HS]; congruence.
          * intros g Q. rewrite Fm by congruence. apply k_tg0. congruence.
      - destruct U as (-> & _). cbn. split; [|exact HR]. apply (K_put_same h1 t); auto.
      - destruct U as (Hts & _). cbn. split; [|exact HR]. apply (K_put_same h1 t); auto. 
    Qed.

    Lemma wp_snapshot s persist consistent t h : persist = true \/ s = Local /\ consistent = false -> K h t ->
      wp D (update_snapshot_with_repos E s persist consistent t)
         (fun h' x => K h' (fst x) /\ t_root (fst x) = t_root t) h.
    Proof.
      intros HP HK. unfold update_snapshot_with_repos. destruct (t_timestamp t) as [ts|] eqn:Ets; [|now split].
      destruct (md_version (tm_snapshot ts) <=? _); [now split|].
      destruct (hash_preference _) as [hash|e] eqn:HH; [|now split].
      eapply wp_seq; [apply (wp_fetch_K _ _ _ _ _ _ _ t); [reflexivity|exact HK]|].
      clear h HK. intros h [raw|e] [HK HF]; [|now split]. destruct (HF raw eq_refl) as [Rd Lk].
      cbn [wp]. intros c _. split; [apply D_guar|]. apply (K_calm h t (EvNow c)) in HK; [|exact I].
      replace (mem_at m0 h) with (mem_at m0 (h ++ [EvNow c])) in Lk by (now rewrite mem_at_snoc).
      set (h1 := h ++ [EvNow c]) in *. clearbody h1. clear h HF.
      destruct (update_snapshot E t c raw) as [t' res] eqn:U.
      assert (I' : inv E t').
      { pose proof (step_inv E t (OpSnapshot c raw)) as S. cbn in S. rewrite U in S. apply S. destruct HK as [_ HK]. apply HK. }
      apply update_snapshot_inv in U. cbn [wp]. intros _. split; [apply D_guar|].
      destruct res as [[|]|e].
      - destruct U as (new & (_ & ts' & Ets' & _ & _ & Tr & V) & HR & Hts & Hsn & Hg & _).
        rewrite Ets in Ets'. inversion Ets'; subst ts'.
        eapply wp_mono; [|apply (wp_keep persist Snapshot "snapshot" raw t' h1); [reflexivity|right; cbn; tauto|..]].
        + intros h' x (H1 & H2 & _). rewrite H2. auto.
        + destruct HP as [HP|[HP ->]]; [auto|right; apply Lk; [exact HP|right; cbn; tauto]].
        + intros b Hb. pose proof HK as [T0 _]. apply trusted_in in T0.
          apply (kept_now h1 t t' "snapshot" raw b); auto.
          intros m Lm Fm []. constructor; rewrite ?HR; auto.
          * apply puts_here.
          * eapply roots_frame; [exact k_roots0|]. intros n _. apply Fm. congruence.
          * intros n Hn. rewrite Fm by congruence. auto.
          * intros ts' Q. rewrite Fm by congruence. apply k_ts0. congruence.
          * intros sn Q. rewrite Hsn in Q. inversion Q; subst sn. exists raw, t, ts.
            split; [exact Lm|]. split; [exact Tr|]. split; [exact k_put0|]. split; [exact Ets|]. split; [now symmetry|].
            exists hash. auto.
          * intros g Q. rewrite Fm by congruence. apply k_tg0. destruct (_ =? _) in Hg; congruence.
      - destruct U as (-> & _). cbn. split; [|reflexivity]. apply (K_put_same h1 t); auto.
      - destruct U as (-> & _). cbn. split; [|reflexivity]. apply (K_put_same h1 t); auto.
    Qed.

    (** The top-level targets are those of the snapshot, or the snapshot lists version 0. *)
    Definition settled (t : tuf) : Prop :=
      exists s d, t_snapshot t = Some s /\ lookup "targets" (sm_meta s) = Some d /\
        md_version d <= targets_version t.

    Lemma wp_targets s persist consistent t h : persist = true \/ s = Local /\ consistent = false -> K h t ->
      wp D (update_targets_with_repos E s persist consistent t)
         (fun h' x => K h' (fst x) /\ t_root (fst x) = t_root t /\ (forall u, snd x = Ok u -> settled (fst x))) h.
    Proof.
      intros HP HK. unfold update_targets_with_repos.
      destruct (t_snapshot t) as [sn|] eqn:Esn; [|split; [|split]; auto; discriminate].
      destruct (lookup (from_role Targets) (sm_meta sn)) as [d|] eqn:Ed; [|split; [|split]; auto; discriminate].
      change (from_role Targets) with "targets" in Ed.
      change (match t_targets t with Some m => tg_version m | None => 0 end) with (targets_version t).
      destruct (N.leb_spec (md_version d) (targets_version t)) as [Le|Gt].
      { cbn. split; [|split]; auto. intros u _. now exists sn, d. }
      destruct (hash_preference _) as [hash|e] eqn:HH; [|split; [|split]; auto; discriminate].
      eapply wp_seq; [apply (wp_fetch_K _ _ _ _ _ _ _ t); [reflexivity|exact HK]|].
      clear h HK. intros h [raw|e] [HK HF]; [|split; [|split]; auto; discriminate]. destruct (HF raw eq_refl) as [Rd Lk].
      cbn [wp]. intros c _. split; [apply D_guar|]. apply (K_calm h t (EvNow c)) in HK; [|exact I].
      replace (mem_at m0 h) with (mem_at m0 (h ++ [EvNow c])) in Lk by (now rewrite mem_at_snoc).
      set (h1 := h ++ [EvNow c]) in *. clearbody h1. clear h HF.
      destruct (update_targets E t c raw) as [t' res] eqn:U.
      assert (I' : inv E t').
      { pose proof (step_inv E t (OpTargets c raw)) as S. cbn in S. rewrite U in S. apply S. destruct HK as [_ HK]. apply HK. }
      apply update_targets_inv in U. cbn [wp]. intros _. split; [apply D_guar|].
      destruct res as [[|]|e].
      - destruct U as (new & (_ & s' & d' & Es' & _ & Ed' & _ & Tr & V & _) & ->).
        rewrite Esn in Es'. inversion Es'; subst s'. rewrite Ed in Ed'. inversion Ed'; subst d'.
        set (t' := mkTuf _ _ _ _ _) in *.
        eapply wp_mono; [|apply (wp_keep persist Targets "targets" raw t' h1); [reflexivity|right; cbn; tauto|..]].
        + intros h' x (H1 & H2 & _). rewrite H2. split; [exact H1|]. split; [reflexivity|].
          intros u _. exists sn, d. split; [exact Esn|]. split; [exact Ed|]. cbn. lia.
        + destruct HP as [HP|[HP ->]]; [auto|right; apply Lk; [exact HP|right; cbn; tauto]].
        + intros b Hb. apply (kept_now h1 t t' "targets" raw b); auto.
          intros m Lm Fm []. constructor; cbn [t' t_root t_snapshot t_targets t_timestamp]; auto.
          * apply puts_here.
          * eapply roots_frame; [exact k_roots0|]. intros n _. apply Fm. congruence.
          * intros n Hn. rewrite Fm by congruence. auto.
          * intros ts' Q. rewrite Fm by congruence. auto.
          * intros s1 Q. rewrite Fm by congruence. auto.
          * intros g Q. inversion Q; subst g. exists raw, t, sn, d.
            split; [exact Lm|]. split; [exact Tr|]. split; [exact k_put0|]. split; [exact Esn|]. split; [exact Ed|].
            split; [now symmetry|]. exists hash. auto.
      - destruct U as (-> & _ & s' & d' & Es' & _ & Ed' & V). cbn. split; [apply (K_put_same h1 t); auto|].
        split; [reflexivity|]. intros u _. exists s', d'. split; [exact Es'|]. split; [exact Ed'|]. lia.
      - destruct U as (-> & _). cbn. split; [apply (K_put_same h1 t); auto|]. split; [reflexivity|discriminate].
    Qed.

    Lemma wp_update_K fuel t h : K h t ->
      wp D (update E cfg fuel t)
         (fun h' x => K h' (fst x) /\
            (forall u, snd x = Ok u -> settled (fst x) /\ rm_version (t_root (fst x)) < u32_max)) h.
    Proof.
      intros HK. unfold update. eapply wp_seq; [now apply wp_root_remote|].
      clear HK t h. intros h [t [r|e]] [HK HV]; cbn [fst snd] in *; [|split; [exact HK|discriminate]].
      specialize (HV r eq_refl).
      eapply wp_seq; [apply wp_timestamp; [now left|exact HK]|].
      clear HK h. intros h [t1 [ts|e]] [HK R1]; cbn [fst snd] in *; [|split; [exact HK|discriminate]].
      eapply wp_seq; [apply wp_snapshot; [now left|exact HK]|].
      clear HK h. intros h [t2 [sn|e]] [HK R2]; cbn [fst snd] in *; [|split; [exact HK|discriminate]].
      eapply wp_seq; [apply wp_targets; [now left|exact HK]|].
      clear HK h. intros h [t3 [ta|e]] (HK & R3 & St); cbn [fst snd] in *; [|split; [exact HK|discriminate]].
      cbn [wp fst snd]. split; [exact HK|]. intros u _. split; [exact (St ta eq_refl)|]. now rewrite R3, R2, R1.
    Qed.

    (** Loading what the memory has. *)
    Lemma wp_new_K fuel h rtop : trusted_at h = Some (tuf_of_root r0) ->
      roots_from (mem_at m0 h) r0 rtop ->
      (forall n, rm_version rtop < n -> lookup ("root", VNumber n) (mem_at m0 h) = None) ->
      wp D (client_new E cfg fuel (tuf_of_root r0)) (fun h' r => forall t, r = Ok t -> K h' t) h.
    Proof.
      intros T RF Top. unfold client_new. eapply (wp_seq D _ _ (fun h x => K h (fst x))).
      { unfold update_root_with_repos. eapply wp_seq; [eapply wp_roots_local; eauto|].
        intros h' [t r] (M & Et & T' & u & Er). cbn [fst snd] in *. subst t r.
        assert (HK : K h' (tuf_of_root rtop)).
        { split; [exact T'|]. rewrite M. constructor; cbn; try discriminate; auto.
          - now apply trusted_in.
          - apply inv_root_only. }
        cbn [wp]. intros c _. split; [apply D_guar|]. destruct (expired _ _); cbn; now apply K_calm. }
      clear h T RF Top. intros h [t [r|e]] HK; cbn [fst] in HK; [|intros t' Q; now inversion Q; subst].
      eapply wp_seq; [apply wp_timestamp; [now right|exact HK]|].
      clear HK h. intros h [t1 [ts|e]] [HK _]; cbn [fst] in HK; [|intros t' Q; now inversion Q; subst].
      eapply wp_seq; [apply wp_snapshot; [now right|exact HK]|].
      clear HK h. intros h [t2 [sn|e]] [HK _]; cbn [fst] in HK; [|intros t' Q; now inversion Q; subst].
      eapply wp_seq; [apply wp_targets; [now right|exact HK]|].
      clear HK h. intros h [t3 x] [HK _]; cbn [fst] in HK. intros t' Q. now inversion Q; subst.
    Qed.
  End Programs.

  (** ** The other calls only touch delegated roles *)

  Definition known (h : list event) (tg : targets_metadata) : Prop :=
    exists t, In (EvPut t) h /\ (t_targets t = Some tg \/ exists r, lookup r (t_delegations t) = Some tg).
  Definition delegates (h : list event) (d : delegation) : Prop :=
    exists tg ds, known h tg /\ tg_delegations tg = Some ds /\ In d (dgs_roles ds).

  Lemma known_more h h' tg : incl h h' -> known h tg -> known h' tg.
  Proof. intros S (t & I & H). exists t. auto. Qed.
  Lemma delegates_more h h' d : incl h h' -> delegates h d -> delegates h' d.
  Proof. intros S (tg & ds & I & H). exists tg, ds. split; [now apply (known_more h)|exact H]. Qed.

  Definition walk_event (h : list event) (ev : event) : Prop :=
    match ev with
    | EvPut t' => forall t, trusted_at h = Some t -> inv E t -> inv E t' /\ same_trust t t'
    | EvStoreMeta p v _ _ =>
        v = VNone /\ p <> "root" /\ p <> "snapshot" /\ exists d, delegates h d /\ p = dg_role d
    | _ => True
    end.
  Definition DW : demands := mkDemands (fun _ _ => True) walk_event (fun _ => True) True.

  Definition W {A} (h : list event) : list event -> tuf * A -> Prop := fun h' x =>
    trusted_at h' = Some (fst x) /\ incl h h'.

  Lemma incl_snoc {A} (h : list A) e : incl h (h ++ [e]).
  Proof. intros x I. apply in_app_iff. auto. Qed.

  Lemma wp_fetch_W s r path v max hash h t : trusted_at h = Some t ->
    wp DW (fetch_metadata E s r path v max hash) (fun h' _ => trusted_at h' = Some t /\ incl h h') h.
  Proof.
    intros T. apply wp_fetch_any; [intros _; split; [exact T|apply incl_refl]|].
    intros ans e _. split; [exact I|]. split; [now rewrite trusted_at_snoc|apply incl_snoc].
  Qed.

  Lemma wp_walk_W recur dt depth target snapshot trole :
    (forall t dt dep tg r h, trusted_at h = Some t -> known h tg ->
       wp DW (recur t dt dep (Some (tg, r))) (W h) h) ->
    forall roles t h, trusted_at h = Some t -> (forall d, In d roles -> delegates h d) ->
      wp DW (walk_loop E recur dt depth target snapshot trole roles t) (W h) h.
  Proof.
    intros HR. induction roles as [|d rest IH]; intros t h0 T Del; [split; [exact T|apply incl_refl]|].
    cbn [walk_loop].
    assert (HC : forall t h, trusted_at h = Some t -> incl h0 h ->
              forall r, wp DW (if dg_terminating d then Ret (t, (true, Err r)) else
                walk_loop E recur dt depth target snapshot trole rest t) (W h0) h).
    { intros t1 h1 T1 S1 r. destruct (dg_terminating d); [now split|].
      eapply wp_mono; [|apply IH; [exact T1|]].
      - intros h2 x [T2 S2]. split; [exact T2|]. intros y I. auto.
      - intros d' I. apply (delegates_more h0); [exact S1|]. apply Del. now right. }
    destruct (negb _); [apply HC; [exact T|apply incl_refl]|].
    destruct (lookup (dg_role d) (sm_meta snapshot)) as [desc|]; [|apply HC; [exact T|apply incl_refl]].
    destruct (hash_preference _) as [hash|e]; [|split; [exact T|apply incl_refl]].
    eapply wp_seq; [exact (wp_fetch_W _ _ _ _ _ _ _ t T)|]. intros h1 r1 [T1 S1].
    eapply (wp_seq DW _ _ (fun h' _ => trusted_at h' = Some t /\ incl h0 h')).
    { destruct r1 as [raw|e]; [now split|]. eapply wp_mono; [|exact (wp_fetch_W _ _ _ _ _ _ _ t T1)].
      intros h2 r2 [T2 S2]. split; [exact T2|]. intros y I. auto. }
    clear r1 h1 T1 S1. intros h1 [raw|e] [T1 S1]; [|now apply HC].
    cbn [wp]. intros c _. split; [exact I|].
    destruct (update_delegation E t c trole (dg_role d) raw) as [t' r] eqn:U. cbn [wp]. intros _. split.
    { cbn. intros t1 T2 I1. rewrite trusted_skip in T2 by discriminate. rewrite T1 in T2. inversion T2; subst t1.
      pose proof (step_inv E t (OpDelegation c trole (dg_role d) raw) I1) as I2. cbn in I2. rewrite U in I2.
      split; [exact I2|]. apply update_delegation_frame in U as (A1 & A2 & A3 & A4). now repeat split. }
    set (h2 := (h1 ++ [EvNow c]) ++ [EvPut t']).
    assert (T2 : trusted_at h2 = Some t') by (unfold h2; now rewrite trusted_at_snoc).
    assert (S2 : incl h0 h2) by (intros y I; unfold h2; rewrite !in_app_iff; auto).
    assert (P2 : In (EvPut t') h2) by (apply in_app_iff; right; now left).
    destruct r as [b|e]; [|now apply HC]. clearbody h2.
    eapply (wp_seq DW _ _ (fun h' _ => trusted_at h' = Some t' /\ incl h2 h')).
    { unfold store_metadata. destruct (repo_check Targets (dg_role d)) as [[]|e] eqn:RC; [|split; [exact T2|apply incl_refl]].
      cbn [wp]. intros ans _. split; [|split; [now rewrite trusted_skip|apply incl_snoc]].
      cbn. split; [reflexivity|]. unfold repo_check in RC. cbn [fuzzy_matches_path] in RC.
      assert (N : dg_role d <> "root" /\ dg_role d <> "snapshot").
      { split; intros Q; rewrite Q in RC; vm_compute in RC; discriminate. }
      destruct N as [N1 N2]. split; [exact N1|]. split; [exact N2|]. exists d. split; [|reflexivity].
      apply (delegates_more h0); [exact S2|]. apply Del. now left. }
    intros h3 _ [T3 S3]. destruct (lookup (dg_role d) (t_delegations t')) as [meta|] eqn:Lm; [|exact I].
    destruct (u32_max <=? depth); [exact I|].
    eapply wp_seq; [apply HR; [exact T3|]|].
    { exists t'. split; [now apply S3|]. right. now exists (dg_role d). }
    intros h4 [t4 [term res]] [T4 S4]. cbn [fst] in T4.
    assert (S5 : incl h0 h4) by (intros y I; apply S4, S3, S2, I).
    destruct (term && negb (is_ok res)); [now split|].
    eapply wp_mono; [|apply IH; [exact T4|]].
    - intros h5 x [T5 S6]. split; [exact T5|]. intros y I. auto.
    - intros d' I. apply (delegates_more h0); [exact S5|]. apply Del. now right.
  Qed.

  Lemma wp_lookup_W fuel target snapshot : forall t dt depth tgs h, trusted_at h = Some t ->
    (forall tg r, tgs = Some (tg, r) -> known h tg) ->
    wp DW (lookup_target_description E cfg fuel t dt depth target snapshot tgs) (W h) h.
  Proof.
    induction fuel as [|fuel IH]; intros t dt depth tgs h T HT; [exact I|]. cbn [lookup_target_description].
    assert (R : forall x, W h h (t, (dt, x) : bool * result target_desc)) by (split; [exact T|apply incl_refl]).
    destruct (_ <? _); [apply R|].
    destruct (match tgs with Some x => Some x | None => _ end) as [[tg trole]|] eqn:Et; [|apply R].
    assert (Kn : known h tg).
    { destruct tgs as [[tg' r']|]; [inversion Et; subst; eauto|].
      destruct (t_targets t) as [g|] eqn:G; [|discriminate]. inversion Et; subst.
      exists t. split; [now apply trusted_in|auto]. }
    destruct (lookup target (tg_targets tg)); [apply R|].
    destruct (tg_delegations tg) as [ds|] eqn:Ds; [|apply R].
    apply wp_walk_W; auto.
    - intros t1 dt1 dep1 tg1 r1 h1 T1 K1. apply IH; [exact T1|]. intros tg2 r2 Q. inversion Q; subst. exact K1.
    - intros d I. exists tg, ds. auto.
  Qed.

  Lemma wp_description_W fuel t target h : trusted_at h = Some t ->
    wp DW (fetch_target_description E cfg fuel t target) (fun _ _ => True) h.
  Proof.
    intros T. unfold fetch_target_description. destruct (cf_translate cfg target) as [virt|e]; [|exact I].
    destruct (t_snapshot t) as [sn|] eqn:S; [|exact I].
    eapply wp_seq; [apply wp_lookup_W; [exact T|discriminate]|]. intros h' [t' [b r]] _. exact I.
  Qed.

  Lemma wp_reader_W fuel t target h : trusted_at h = Some t ->
    wp DW (fetch_target_reader E cfg fuel t target) (fun _ _ => True) h.
  Proof.
    intros T. unfold fetch_target_reader. eapply wp_seq; [now apply wp_description_W|].
    clear t h T. intros h [t [d|e]] _; [|exact I]. unfold fetch_target_stream.
    destruct (rm_consistent (t_root t)).
    - destruct (rbind _ _) as [p|e]; [|exact I]. destruct (hash_preference _); [|exact I].
      cbn. intros ans _. split; exact I.
    - destruct (hash_preference _); [|exact I]. cbn. intros ans _. split; exact I.
  Qed.

  Lemma wp_call_W fuel t k h : k <> CallUpdate -> trusted_at h = Some t ->
    wp DW (call_prog E cfg fuel t k) (fun _ _ => True) h.
  Proof.
    intros Nk T. destruct k as [|p|p|p]; cbn [call_prog]; [congruence|..].
    - eapply wp_seq; [now apply wp_description_W|]. intros h' [t' r] _. exact I.
    - unfold fetch_target. eapply wp_seq; [now apply wp_reader_W|]. intros h' [t' [rs|e]] _; [|exact I].
      cbn. intros ans _. split; exact I.
    - unfold fetch_target_to_writer. eapply wp_seq; [now apply wp_reader_W|]. intros h' [t' [rs|e]] _; [|exact I].
      eapply (wp_seq DW _ _ (fun _ _ => True)); [|intros h2 r2 _; exact I].
      revert h'. induction rs as [|[| |data] rs IH]; intros h'; cbn [copy_to_writer]; [exact I|apply IH|exact I|].
      destruct (_ =? _); [exact I|]. cbn. intros [k|] _; (split; [exact I|]); [exact I|apply IH].
  Qed.

  (** ** What is stored by [update], and by starting *)

  Definition top_event (e : event) : Prop := match e with EvStoreMeta p v _ _ => top_store p v | _ => True end.
  Definition DTop : demands := mkDemands (fun _ _ => True) (fun _ => top_event) (fun _ => True) True.

  Lemma wp_fetch_top s r path v max hash h :
    wp DTop (fetch_metadata E s r path v max hash) (fun _ _ => True) h.
  Proof. apply wp_fetch_any; [auto|]. intros ans e _. split; exact I. Qed.
  Lemma wp_store_top r path v raw h : top_store path v ->
    wp DTop (store_metadata r path v raw) (fun _ _ => True) h.
  Proof. intros T. apply wp_store_any; [auto|]. intros ans e _. split; [exact T|exact I]. Qed.
  Lemma wp_last_top (persist : bool) r path raw (t' : tuf) h : top_store path VNone ->
    wp DTop (if persist then do r1 <- store_metadata r path VNone raw in
             match r1 with Err e => Ret (t', Err e) | Ok _ => Ret (t', Ok true) end
           else Ret (t', Ok true)) (fun _ _ => True) h.
  Proof.
    intros T. destruct persist; [|exact I]. eapply wp_seq; [now apply wp_store_top|].
    intros h' [[]|e] _; exact I.
  Qed.

  Lemma wp_roots_top fuel : forall s (persist : bool) t updated h,
    wp DTop (root_loop E cfg fuel s persist t updated) (fun _ _ => True) h.
  Proof.
    induction fuel as [|fuel IH]; intros s persist t updated h; [exact I|]. cbn [root_loop].
    destruct (_ <=? _); [exact I|]. eapply wp_seq; [apply wp_fetch_top|]. clear h. intros h [raw|e] _; [|destruct e; exact I].
    destruct (update_root E t raw) as [t' [[]|e]]; cbn [wp]; intros _; (split; [exact I|]); [|exact I].
    destruct persist; [|apply IH].
    eapply wp_seq; [apply wp_store_top; right; auto|]. intros h1 [[]|e] _; [|exact I].
    eapply wp_seq; [apply wp_store_top; left; left; eauto|]. intros h2 [[]|e] _; [|exact I]. apply IH.
  Qed.
  Lemma wp_root_top fuel s persist t h : wp DTop (update_root_with_repos E cfg fuel s persist t) (fun _ _ => True) h.
  Proof.
    unfold update_root_with_repos. eapply wp_seq; [apply wp_roots_top|]. clear h. intros h [t' [u|e]] _; [|exact I].
    cbn [wp]. intros c _. split; [exact I|]. destruct (expired _ _); exact I.
  Qed.
  Lemma wp_timestamp_top s persist t h : wp DTop (update_timestamp_with_repos E cfg s persist t) (fun _ _ => True) h.
  Proof.
    unfold update_timestamp_with_repos. eapply wp_seq; [apply wp_fetch_top|]. clear h. intros h [raw|e] _; [|exact I].
    cbn [wp]. intros c _. split; [exact I|]. destruct (update_timestamp E t c raw) as [t' [[n|]|e]]; cbn [wp];
      intros _; (split; [exact I|]); try exact I. apply wp_last_top. left. right. cbn. auto.
  Qed.
  Lemma wp_snapshot_top s persist consistent t h : wp DTop (update_snapshot_with_repos E s persist consistent t) (fun _ _ => True) h.
  Proof.
    unfold update_snapshot_with_repos. destruct (t_timestamp t); [|exact I]. destruct (_ <=? _); [exact I|].
    destruct (hash_preference _); [|exact I].
    eapply wp_seq; [apply wp_fetch_top|]. clear h. intros h [raw|e] _; [|exact I].
    cbn [wp]. intros c _. split; [exact I|]. destruct (update_snapshot E t c raw) as [t' [[|]|e]]; cbn [wp];
      intros _; (split; [exact I|]); try exact I. apply wp_last_top. left. right. cbn. auto.
  Qed.
  Lemma wp_targets_top s persist consistent t h : wp DTop (update_targets_with_repos E s persist consistent t) (fun _ _ => True) h.
  Proof.
    unfold update_targets_with_repos. destruct (t_snapshot t); [|exact I]. destruct (lookup _ _); [|exact I].
    destruct (_ <=? _); [exact I|]. destruct (hash_preference _); [|exact I].
    eapply wp_seq; [apply wp_fetch_top|]. clear h. intros h [raw|e] _; [|exact I].
    cbn [wp]. intros c _. split; [exact I|]. destruct (update_targets E t c raw) as [t' [[|]|e]]; cbn [wp];
      intros _; (split; [exact I|]); try exact I. apply wp_last_top. left. right. cbn. auto.
  Qed.
  Lemma wp_update_top fuel t h : wp DTop (update E cfg fuel t) (fun _ _ => True) h.
  Proof.
    unfold update. eapply wp_seq; [apply wp_root_top|]. clear h. intros h [t1 [r|e]] _; [|exact I].
    eapply wp_seq; [apply wp_timestamp_top|]. clear h. intros h [t2 [r2|e]] _; [|exact I].
    eapply wp_seq; [apply wp_snapshot_top|]. clear h. intros h [t3 [r3|e]] _; [|exact I].
    eapply wp_seq; [apply wp_targets_top|]. clear h. intros h [t4 [r4|e]] _; exact I.
  Qed.
  Lemma wp_new_top fuel t h : wp DTop (client_new E cfg fuel t) (fun _ _ => True) h.
  Proof.
    unfold client_new. eapply wp_seq; [apply wp_root_top|]. clear h. intros h [t1 [r|e]] _; [|exact I].
    eapply wp_seq; [apply wp_timestamp_top|]. clear h. intros h [t2 [r2|e]] _; [|exact I].
    eapply wp_seq; [apply wp_snapshot_top|]. clear h. intros h [t3 [r3|e]] _; [|exact I].
    eapply wp_seq; [apply wp_targets_top|]. clear h. intros h [t4 [r4|e]] _; exact I.
  Qed.

  Lemma along_in (R : event -> Prop) tr : forall h, along (fun _ => R) h tr -> forall e, In e tr -> R e.
  Proof.
    intros h A e H. apply in_split in H as (pre & post & ->). exact (A pre e post eq_refl).
  Qed.
  Lemma update_stores fuel t tr q : exec (update E cfg fuel t) tr q -> forall e, In e tr -> top_event e.
  Proof.
    intros X. destruct (wp_sound DTop _ _ _ X _ _ (wp_update_top fuel t []) (along_true _ _)) as [G _].
    exact (along_in _ _ _ G).
  Qed.
  Lemma start_stores fuel raw tr q : exec (construct E cfg fuel (FromRoot raw)) tr q -> forall e, In e tr -> top_event e.
  Proof.
    intros X. cbn [construct] in X. unfold with_trusted_root in X.
    assert (Wp : wp DTop (match from_trusted_root E raw with Err e => Ret (Err e) | Ok t => Put t (client_new E cfg fuel t) end)
                    (fun _ _ => True) []).
    { destruct (from_trusted_root E raw); [|exact I]. cbn [wp]. intros _. split; [exact I|]. apply wp_new_top. }
    destruct (wp_sound DTop _ _ _ X _ _ Wp (along_true _ _)) as [G _]. exact (along_in _ _ _ G).
  Qed.

  (** ** Sessions with any local repository that answers like the memory where it matters *)

  Lemma every_role_delegates ok h d : every_role ok h -> delegates h d -> ok (dg_role d).
  Proof. intros N (tg & ds & (t & I & H) & Ds & Id). exact (N t tg ds d I H Ds Id). Qed.

  Definition DM : demands := mkDemands (mem_rely m0) (fun _ _ => True) (fun _ => True) True.

  Lemma from_trusted_shape raw t : from_trusted_root E raw = Ok t -> t = tuf_of_root (t_root t).
  Proof. intros H. apply from_trusted_iff in H as (a & b & c & r & _ & _ & _ & ->). reflexivity. Qed.

  Section Sessions.
    Variable S : Type.
    Variable runs : S -> list event -> S -> Prop.
    Variable ok : string -> Prop.
    Variable like : S -> store -> Prop.
    Hypothesis ok_names : forall n, ok n -> n <> "timestamp" /\ n <> "targets".
    Definition fine_event (e : event) : Prop :=
      match e with EvStoreMeta p v _ _ => top_store p v \/ v = VNone /\ ok p | _ => True end.
    Hypothesis runs_mem : forall s tr s' h, runs s tr s' -> like s (mem_at m0 h) ->
      (forall e, In e tr -> fine_event e) -> along (mem_rely m0) h tr /\ like s' (mem_at m0 (h ++ tr)).

    Lemma top_fine e : top_event e -> fine_event e.
    Proof. destruct e; cbn; auto. Qed.

    Lemma K_along tr : forall h t, K h t -> along walk_event h tr -> every_role ok (h ++ tr) ->
      K (h ++ tr) (tuf_after t tr).
    Proof.
      induction tr as [|e tr IH]; intros h t HK A N; [now rewrite app_nil_r|].
      apply along_cons in A as [Ae A].
      replace (h ++ e :: tr) with ((h ++ [e]) ++ tr) in * by now rewrite <- app_assoc.
      assert (H1 : K (h ++ [e]) (tuf_after t [e])).
      { destruct e as [s p v mx hs a|p v d a|p d a|p rs a|b a|c|t']; cbn [tuf_after]; try (apply K_calm; [exact HK|exact I]).
        - cbn in Ae. destruct Ae as (-> & A1 & A2 & d' & Dd & ->).
          destruct (ok_names _ (every_role_delegates _ _ _ (every_role_prefix _ _ _ (every_role_prefix _ _ _ N)) Dd)) as [B1 B2].
          apply K_store; [exact HK|..]; congruence.
        - cbn in Ae. destruct HK as [T HK]. destruct (Ae t T (k_inv _ _ _ _ HK)) as [I' (R1 & R2 & R3 & R4)].
          apply (K_put_same h t); auto. now split. }
      destruct e; cbn [tuf_after] in *; apply IH; auto.
    Qed.

    Lemma walk_fine tr : forall h, along walk_event h tr -> every_role ok (h ++ tr) -> forall e, In e tr -> fine_event e.
    Proof.
      intros h A N e H. apply in_split in H as (pre & post & ->). specialize (A pre e post eq_refl).
      destruct e; cbn; auto. cbn in A. destruct A as (-> & _ & _ & d & Dd & ->). right. split; [reflexivity|].
      apply (every_role_delegates _ (h ++ pre)); [|exact Dd]. rewrite app_assoc in N. exact (every_role_prefix _ _ _ N).
    Qed.

    Lemma walk_same tr : forall h t, K h t -> along walk_event h tr -> every_role ok (h ++ tr) ->
      same_trust t (tuf_after t tr).
    Proof.
      induction tr as [|e tr IH] using rev_ind; intros h t HK A N; [now repeat split|].
      apply along_app in A as [A Ae]. apply along_cons in Ae as [Ae _]. rewrite app_assoc in N.
      specialize (IH h t HK A (every_role_prefix _ _ _ N)).
      assert (HK' := K_along tr h t HK A (every_role_prefix _ _ _ N)).
      assert (Q : forall t0, tuf_after t0 (tr ++ [e]) = tuf_after (tuf_after t0 tr) [e]).
      { clear. induction tr as [|x tr IH]; intros t0; [reflexivity|]. destruct x; cbn [tuf_after app]; apply IH. }
      rewrite Q. destruct e; cbn [tuf_after]; auto. cbn in Ae. destruct HK' as [T HK'].
      destruct (Ae _ T (k_inv _ _ _ _ HK')) as [_ (R1 & R2 & R3 & R4)]. destruct IH as (S1 & S2 & S3 & S4).
      repeat split; congruence.
    Qed.

    Lemma other_calls_K fuel t e tr t' e' : other_calls runs E cfg fuel t e tr t' e' -> forall h, K h t ->
      like e (mem_at m0 h) -> every_role ok (h ++ tr) ->
      K (h ++ tr) t' /\ like e' (mem_at m0 (h ++ tr)) /\ same_trust t t'.
    Proof.
      induction 1 as [t e|t e k tr q e1 tr' t' e' Nk X Y _ IH]; intros h HK M N.
      - rewrite app_nil_r. split; [exact HK|]. split; [exact M|]. now repeat split.
      - rewrite app_assoc in *. assert (N' := every_role_prefix _ _ _ N).
        assert (Wp := wp_call_W fuel t k h Nk (proj1 HK)).
        destruct (wp_sound DW _ _ _ X _ _ Wp (along_true _ _)) as [G _].
        destruct (runs_mem _ _ _ h Y M (walk_fine _ _ G N')) as [_ M1].
        destruct (IH (h ++ tr) (K_along tr h t HK G N') M1 N) as (H1 & H2 & H3).
        split; [exact H1|]. split; [exact H2|].
        destruct (walk_same tr h t HK G N') as (S1 & S2 & S3 & S4). destruct H3 as (R1 & R2 & R3 & R4).
        repeat split; congruence.
    Qed.

    Lemma sessions_K fuel raw e0 tr t e : from_trusted_root E raw = Ok (tuf_of_root r0) -> like e0 m0 ->
      (forall n, rm_version r0 < n -> lookup ("root", VNumber n) m0 = None) ->
      sessions runs E cfg fuel raw e0 tr t e -> every_role ok tr ->
      K tr t /\ like e (mem_at m0 tr).
    Proof.
      intros F0 M0 Top. induction 1 as [tr t e X Y|tr t e tr' t' r e' _ IH X Y|tr t e k tr' q e' _ IH Nk X Y
                                       |tr t e tr' t' e' _ IH X Y]; intros N.
      - destruct (runs_mem _ _ _ [] Y M0 (fun e H => top_fine e (start_stores _ _ _ _ X e H))) as [A M]. split; [|exact M].
        cbn [construct] in X. unfold with_trusted_root in X. rewrite F0 in X.
        assert (Wp : wp DM (Put (tuf_of_root r0) (client_new E cfg fuel (tuf_of_root r0)))
                      (fun h r => forall t, r = Ok t -> K h t) []).
        { cbn [wp]. intros _. split; [exact I|].
          apply (wp_new_K DM) with (rtop := r0); cbn; auto. constructor. }
        destruct (wp_sound DM _ _ _ X _ _ Wp A) as [_ W']. cbn in W'. auto.
      - destruct (IH (every_role_prefix _ _ _ N)) as [HK M0'].
        destruct (runs_mem _ _ _ tr Y M0' (fun e H => top_fine e (update_stores _ _ _ _ X e H))) as [A M]. split; [|exact M].
        assert (Wp := wp_update_K DM (fun _ _ x => x) (fun _ _ => I) I (fun _ => I) fuel t tr HK).
        destruct (wp_sound DM _ _ _ X _ _ Wp A) as [_ [W' _]]. exact W'.
      - destruct (IH (every_role_prefix _ _ _ N)) as [HK M0'].
        assert (Wp := wp_call_W fuel t k tr Nk (proj1 HK)).
        destruct (wp_sound DW _ _ _ X _ _ Wp (along_true _ _)) as [G _].
        destruct (runs_mem _ _ _ tr Y M0' (walk_fine _ _ G N)) as [_ M]. split; [|exact M].
        now apply K_along.
      - destruct (IH (every_role_prefix _ _ _ N)) as [[T HK] M0'].
        destruct (runs_mem _ _ _ tr Y M0' (fun e H => top_fine e (start_stores _ _ _ _ X e H))) as [A M]. split; [|exact M].
        cbn [construct] in X. unfold with_trusted_root in X. rewrite F0 in X.
        assert (Wp : wp DM (Put (tuf_of_root r0) (client_new E cfg fuel (tuf_of_root r0)))
                      (fun h r => forall t, r = Ok t -> K h t) tr).
        { cbn [wp]. intros _. split; [exact I|].
          apply (wp_new_K DM) with (rtop := t_root t); cbn; auto.
          - now rewrite trusted_at_snoc.
          - rewrite mem_at_snoc. apply HK.
          - rewrite mem_at_snoc. apply HK. }
        destruct (wp_sound DM _ _ _ X _ _ Wp A) as [_ W']. cbn in W'. auto.
    Qed.
  End Sessions.

  (** ** The restart *)

  Section Replay.
    Variable t : tuf.
    Variable P : tuf -> Prop.
    Hypothesis HK : kept r0 m0 P t.
    Hypothesis St : settled t.
    Hypothesis Small : rm_version (t_root t) < u32_max.
    Hypothesis stable_ts : forall t1 t2 ts1 ts2, P t1 -> P t2 ->
     t_timestamp t1 = Some ts1 -> t_timestamp t2 = Some ts2 ->
     md_version (tm_snapshot ts1) = md_version (tm_snapshot ts2) -> tm_snapshot ts1 = tm_snapshot ts2.
    Hypothesis stable_sn : forall t1 t2 s1 s2 d1 d2, P t1 -> P t2 ->
     t_snapshot t1 = Some s1 -> t_snapshot t2 = Some s2 ->
     lookup "targets" (sm_meta s1) = Some d1 -> lookup "targets" (sm_meta s2) = Some d2 ->
     md_version d1 = md_version d2 -> d1 = d2.

    Definition DR : demands :=
      mkDemands (fun h e => mem_rely m0 h e /\ forall c, e = EvNow c -> before_expiry t c)
                (fun _ _ => True) (fun _ => False) True.

    (** Reading the document of the memory. *)
    Lemma wp_fetch_replay r path v max hash raw h : repo_check r path = Ok tt -> cached path v ->
      mem_at m0 h = m0 -> lookup (path, v) m0 = Some raw ->
      read_metadata C max hash (Ok (cursor raw)) = Ok raw ->
      wp DR (fetch_metadata E Local r path v max hash) (fun h' res => mem_at m0 h' = m0 /\ res = Ok raw) h.
    Proof.
      intros HC Ca M L R. apply (wp_fetch_mem DR); [now intros ? ? []|exact (fun _ _ => I)|exact HC|].
      intros ans _ A. rewrite (A eq_refl Ca). unfold mem_answer. rewrite M, L. split; [|exact R].
      now rewrite mem_at_snoc.
    Qed.

    Lemma replay fuel h : trusted_at h = Some (tuf_of_root r0) -> mem_at m0 h = m0 ->
      wp DR (client_new E cfg fuel (tuf_of_root r0)) (fun _ r => exists t', r = Ok t' /\ same_trust t t') h.
    Proof.
      intros T M. unfold client_new.
      assert (FD : forall h e, rely DR h e -> mem_rely m0 h e) by now intros ? ? [].
      eapply (wp_seq DR _ _ (fun h x => mem_at m0 h = m0 /\ fst x = tuf_of_root (t_root t) /\ exists u, snd x = Ok u)).
      { unfold update_root_with_repos. eapply wp_seq.
        - eapply (wp_roots_local DR FD (fun _ _ => I) I fuel r0 (t_root t)); auto; rewrite M; apply HK.
        - intros h' [t1 r] (M' & Et & T' & u & Er). cbn [fst snd] in *. subst t1 r.
          cbn [wp]. intros c [_ B]. split; [exact I|]. specialize (B c eq_refl).
          cbn [tuf_of_root t_root].
          rewrite (proj2 (expired_false _ _) (proj1 (B (at_root c) ltac:(cbn; auto)))).
          cbn. rewrite mem_at_snoc. cbn. rewrite M', M. eauto. }
      clear h T M. intros h [t1 r1] (M & Et & u & Er). cbn [fst snd] in *. subst t1 r1.
      destruct St as (s & d & Es & Ed & Le). destruct HK as [KP KI KR KT Kts Ksn Ktg].
      destruct KI as ((V1 & V2 & V3) & _ & Pts & Psn & Ptg & _).
      destruct (V1 s Es) as (ts & Ets & Vs).
      destruct (Kts ts Ets) as (raw_ts & Lts & Rts & Tts).
      destruct (Ksn s Es) as (raw_sn & t1 & ts1 & Lsn & Tsn & P1 & Ets1 & Vts1 & Rsn).
      assert (tm_snapshot ts1 = tm_snapshot ts) as Q1 by (apply (stable_ts t1 t); auto; congruence).
      rewrite Q1 in Rsn. destruct Rsn as (hash_sn & Hsn & Rsn).
      set (tA := tuf_of_root (t_root t)) in *.
      (* the timestamp *)
      eapply (wp_seq DR _ _ (fun h x => mem_at m0 h = m0 /\
                fst x = mkTuf (t_root t) None None (Some ts) [] /\ exists u, snd x = Ok u)).
      { unfold update_timestamp_with_repos.
        eapply wp_seq; [eapply wp_fetch_replay; [reflexivity|right; cbn; tauto|exact M|exact Lts|exact Rts]|].
        clear h M. intros h res [M ->]. cbn [wp]. intros c [_ B]. split; [exact I|]. specialize (B c eq_refl).
        destruct (update_timestamp_spec E tA c raw_ts) as (U & _).
        destruct (U ts) as (t2 & U' & R1 & R2 & R3 & R4 & R5).
        { split; [exact Tts|]. split; [cbn; now apply Pts|]. destruct (B (at_new c)) as (_ & B' & _); [cbn; auto 6|]. now apply B'. }
        rewrite U'. cbn [wp]. intros _. split; [exact I|]. cbn. rewrite !mem_at_snoc. cbn. split; [exact M|].
        split; [|eauto].
        assert (R6 : t_snapshot t2 = None) by (rewrite R5; destruct (_ =? _); reflexivity).
        clear R5 U'. destruct t2; cbn in *. now subst. }
      clear h M. intros h [tB rB] (M & Et & u' & Er). cbn [fst snd] in *. subst tB rB.
      (* the snapshot *)
      set (tB := mkTuf (t_root t) None None (Some ts) []) in *.
      eapply (wp_seq DR _ _ (fun h x => mem_at m0 h = m0 /\ (exists dl,
                fst x = mkTuf (t_root t) (Some s) None (Some ts) dl) /\ exists u, snd x = Ok u)).
      { unfold update_snapshot_with_repos. cbn [tB t_timestamp t_snapshot].
        destruct (N.leb_spec (md_version (tm_snapshot ts)) 0) as [Z|Z]; [specialize (Psn s Es); lia|].
        rewrite Hsn.
        eapply wp_seq; [eapply wp_fetch_replay; [reflexivity|right; cbn; tauto|exact M|exact Lsn|exact Rsn]|].
        clear h M. intros h res [M ->]. cbn [wp]. intros c [_ B]. split; [exact I|]. specialize (B c eq_refl).
        destruct (update_snapshot E tB c raw_sn) as [t2 res] eqn:U. apply update_snapshot_inv in U.
        assert (Acc : snapshot_acceptable E tB c raw_sn s).
        { split; [destruct (B (at_root c)) as (B' & _); [cbn; auto|exact B']|].
          exists ts. split; [reflexivity|]. split; [destruct (B (at_timestamp c)) as (_ & B' & _); [cbn; auto 6|now apply B']|].
          split; [exact Z|]. split; [exact Tsn|exact Vs]. }
        cbn [wp]. intros _. split; [exact I|]. destruct res as [[|]|e].
        - destruct U as (new & (_ & ts' & _ & _ & _ & Tn & _) & R1 & R2 & R3 & R4 & _).
          assert (new = s) as -> by exact (authentic_fun E Snapshot raw_sn _ _ _ _ _ _ Tn Tsn).
          cbn. rewrite !mem_at_snoc. cbn. split; [exact M|]. split; [|eauto]. exists (t_delegations t2).
          assert (R6 : t_targets t2 = None) by (rewrite R4; destruct (_ =? _); reflexivity).
          clear R4. destruct t2; cbn in *. now subst.
        - destruct U as (_ & _ & ts' & Q & _ & V). cbn in Q. inversion Q; subst ts'. cbn in V. lia.
        - destruct U as (_ & U). now destruct (U s Acc). }
      clear h M. intros h [tC rC] (M & (dl & Et) & u2 & Er). cbn [fst snd] in *. subst tC rC.
      (* the targets *)
      set (tC := mkTuf (t_root t) (Some s) None (Some ts) dl) in *.
      eapply (wp_seq DR _ _ (fun h x => same_trust t (fst x))); [|intros h' [tD x] Sm; cbn; eauto].
      unfold update_targets_with_repos. cbn [tC t_snapshot t_targets].
      change (from_role Targets) with "targets". rewrite Ed.
      destruct (t_targets t) as [g|] eqn:Eg.
      2:{ unfold targets_version in Le. rewrite Eg in Le. cbn in Le.
          destruct (N.leb_spec (md_version d) 0); [|lia]. cbn. repeat split; cbn; auto. }
      destruct (Ktg g eq_refl) as (raw_tg & t4 & s4 & d4 & Ltg & Ttg & P4 & Es4 & Ed4 & Vd4 & Rtg).
      destruct (V2 s g Es eq_refl) as (d' & Ed' & Vg). rewrite Ed in Ed'. inversion Ed'; subst d'. clear Ed'.
      assert (d4 = d) as -> by (apply (stable_sn t4 t s4 s); auto; congruence).
      destruct Rtg as (hash_tg & Htg & Rtg).
      destruct (N.leb_spec (md_version d) 0) as [Z|Z]; [specialize (Ptg g eq_refl); lia|]. rewrite Htg.
      eapply wp_seq; [eapply wp_fetch_replay; [reflexivity|right; cbn; tauto|exact M|exact Ltg|exact Rtg]|].
      clear h M. intros h res [M ->]. cbn [wp]. intros c [_ B]. split; [exact I|]. specialize (B c eq_refl).
      destruct (update_targets E tC c raw_tg) as [t2 res] eqn:U. apply update_targets_inv in U.
      assert (Acc : targets_acceptable E tC c raw_tg g).
      { split; [destruct (B (at_root c)) as (B' & _); [cbn; auto|exact B']|].
        exists s, d. split; [reflexivity|].
        split; [destruct (B (at_snapshot c)) as (_ & _ & B' & _); [cbn; auto 6|now apply B']|].
        split; [exact Ed|]. split; [exact Z|]. split; [exact Ttg|]. split; [exact Vg|].
        destruct (B (at_new c)) as (_ & _ & _ & B'); [cbn; auto 6|now apply B']. }
      cbn [wp]. intros _. split; [exact I|]. destruct res as [[|]|e].
      - destruct U as (new & (_ & s' & d' & _ & _ & _ & _ & Tn & _) & ->).
        assert (new = g) as -> by exact (authentic_fun E Targets raw_tg _ _ _ _ _ _ Tn Ttg).
        cbn. repeat split; cbn; auto.
      - destruct U as (_ & _ & s' & d' & Q & _ & Qd & V). cbn in Q. inversion Q; subst s'.
        rewrite Ed in Qd. inversion Qd; subst d'. cbn in V. lia.
      - destruct U as (_ & U). now destruct (U g Acc).
    Qed.
  End Replay.

  (** The root and the timestamp come back in any case. *)
  Section Keep.
    Variable t : tuf.
    Variable P : tuf -> Prop.
    Hypothesis HK : kept r0 m0 P t.
    Hypothesis Small : rm_version (t_root t) < u32_max.

    Definition DK : demands :=
      mkDemands (fun h e => mem_rely m0 h e /\ forall c, e = EvNow c -> in_time t c)
                (fun _ _ => True) (fun _ => False) True.
    Definition still (t' : tuf) : Prop := t_root t' = t_root t /\ (t_timestamp t <> None -> t_timestamp t' = t_timestamp t).

    Lemma wp_any_fetch s r path v max hash (Q : list event -> result bytes -> Prop) h : repo_check r path = Ok tt ->
      (forall h' res, Q h' res) -> wp DK (fetch_metadata E s r path v max hash) Q h.
    Proof. intros HC H. unfold fetch_metadata. rewrite HC. cbn. intros ans _. split; [exact I|apply H]. Qed.

    Lemma keep_snapshot h t1 : still t1 ->
      wp DK (update_snapshot_with_repos E Local false false t1) (fun _ x => still (fst x)) h.
    Proof.
      intros S. unfold update_snapshot_with_repos. destruct (t_timestamp t1) as [ts|] eqn:Ts; [|exact S].
      destruct (_ <=? _); [exact S|]. destruct (hash_preference _) as [hash|e]; [|exact S].
      eapply wp_seq; [apply wp_any_fetch with (Q := fun _ _ => True); [reflexivity|auto]|].
      clear h. intros h [raw|e] _; [|exact S]. cbn [wp]. intros c _. split; [exact I|].
      destruct (update_snapshot E t1 c raw) as [t2 res] eqn:U. apply update_snapshot_inv in U.
      assert (S2 : still t2).
      { destruct S as [S1 S2]. destruct res as [[|]|e].
        - destruct U as (new & _ & R1 & R2 & R3 & _). unfold still. split; [congruence|]. intros N. rewrite <- S2 by exact N. congruence.
        - destruct U as (-> & _). now split.
        - destruct U as (-> & _). now split. }
      cbn [wp]. intros _. split; [exact I|]. destruct res as [[|]|e]; exact S2.
    Qed.
    Lemma keep_targets h t1 : still t1 ->
      wp DK (update_targets_with_repos E Local false false t1) (fun _ x => still (fst x)) h.
    Proof.
      intros S. unfold update_targets_with_repos. destruct (t_snapshot t1) as [sn|] eqn:Sn; [|exact S].
      destruct (lookup _ _); [|exact S].
      destruct (_ <=? _); [exact S|]. destruct (hash_preference _) as [hash|e]; [|exact S].
      eapply wp_seq; [apply wp_any_fetch with (Q := fun _ _ => True); [reflexivity|auto]|].
      clear h. intros h [raw|e] _; [|exact S]. cbn [wp]. intros c _. split; [exact I|].
      destruct (update_targets E t1 c raw) as [t2 res] eqn:U. apply update_targets_inv in U.
      assert (S2 : still t2).
      { destruct S as [S1 S2]. destruct res as [[|]|e].
        - destruct U as (new & _ & ->). now split.
        - destruct U as (-> & _). now split.
        - destruct U as (-> & _). now split. }
      cbn [wp]. intros _. split; [exact I|]. destruct res as [[|]|e]; exact S2.
    Qed.

    Lemma keep fuel h : trusted_at h = Some (tuf_of_root r0) -> mem_at m0 h = m0 ->
      wp DK (client_new E cfg fuel (tuf_of_root r0)) (fun _ r => exists t', r = Ok t' /\ still t') h.
    Proof.
      intros T M. unfold client_new.
      assert (FD : forall h e, rely DK h e -> mem_rely m0 h e) by now intros ? ? [].
      eapply (wp_seq DK _ _ (fun h x => mem_at m0 h = m0 /\ fst x = tuf_of_root (t_root t) /\ exists u, snd x = Ok u)).
      { unfold update_root_with_repos. eapply wp_seq.
        - eapply (wp_roots_local DK FD (fun _ _ => I) I fuel r0 (t_root t)); auto; rewrite M; apply HK.
        - intros h' [t1 r] (M' & Et & T' & u & Er). cbn [fst snd] in *. subst t1 r.
          cbn [wp]. intros c [_ B]. split; [exact I|]. specialize (B c eq_refl).
          cbn [tuf_of_root t_root].
          rewrite (proj2 (expired_false _ _) (proj1 (B (at_root c) ltac:(cbn; auto)))).
          cbn. rewrite mem_at_snoc. cbn. rewrite M', M. eauto. }
      clear h T M. intros h [t1 r1] (M & Et & u & Er). cbn [fst snd] in *. subst t1 r1.
      set (tA := tuf_of_root (t_root t)) in *.
      eapply (wp_seq DK _ _ (fun h x => still (fst x))).
      { unfold update_timestamp_with_repos. destruct (t_timestamp t) as [ts|] eqn:Ets.
        - destruct HK as [KP KI KR KT Kts Ksn Ktg]. destruct KI as (_ & _ & Pts & _).
          destruct (Kts ts Ets) as (raw_ts & Lts & Rts & Tts).
          eapply wp_seq; [eapply (wp_fetch_mem DK FD (fun _ _ => I) _ _ _ _ _ _ (fun h' res => res = Ok raw_ts)); [reflexivity|]|].
          { intros ans _ A. rewrite (A eq_refl ltac:(right; cbn; tauto)). unfold mem_answer. rewrite M. change (from_role Timestamp) with "timestamp". rewrite Lts. exact Rts. }
          clear h M. intros h res ->. cbn [wp]. intros c [_ B]. split; [exact I|]. specialize (B c eq_refl).
          destruct (update_timestamp_spec E tA c raw_ts) as (U & _).
          destruct (U ts) as (t2 & U' & R1 & R2 & R3 & R4 & R5).
          { split; [exact Tts|]. split; [cbn; now apply Pts|]. destruct (B (at_new c)) as (_ & B'); [cbn; auto 6|]. now apply B'. }
          rewrite U'. cbn [wp]. intros _. split; [exact I|]. cbn. split; [exact R1|]. intros _. congruence.
        - eapply wp_seq; [apply wp_any_fetch with (Q := fun _ _ => True); [reflexivity|auto]|].
          assert (SA : still tA) by (split; [reflexivity|now rewrite Ets]).
          clear h M. intros h [raw|e] _; [|exact SA]. cbn [wp]. intros c _. split; [exact I|].
          destruct (update_timestamp E tA c raw) as [t2 res] eqn:U.
          assert (S2 : still t2).
          { split; [|now rewrite Ets]. apply update_timestamp_inv in U as (U & _). exact U. }
          cbn [wp]. intros _. split; [exact I|]. destruct res as [[ts|]|e]; exact S2. }
      clear h M. intros h [t1 [x|e]] S1; cbn [fst] in S1; [|cbn; eauto].
      eapply wp_seq; [apply keep_snapshot; exact S1|].
      clear h S1. intros h [t2 [y|e]] S2; cbn [fst] in S2; [|cbn; eauto].
      eapply wp_seq; [apply keep_targets; exact S2|].
      clear h S2. intros h [t3 z] S3; cbn [fst] in S3. cbn. eauto.
    Qed.
  End Keep.
End Restart.

(** The restart, for any local repository that answers like the memory where it matters. *)
Lemma restart_restores (S : Type) (runs : S -> list event -> S -> Prop) (ok : string -> Prop) (like : S -> store -> Prop) :
  (forall n, ok n -> n <> "timestamp" /\ n <> "targets") ->
  (forall m0 s tr s' h, runs s tr s' -> like s (mem_at m0 h) ->
      (forall e, In e tr -> fine_event ok e) -> along (mem_rely m0) h tr /\ like s' (mem_at m0 (h ++ tr))) ->
  forall E cfg fuel fuel' raw t0 m0 e0 tr t e tr1 t1 b e1 tr2 t2 e2 tr3 q e3,
  from_trusted_root E raw = Ok t0 -> like e0 m0 ->
  (forall n, rm_version (t_root t0) < n -> lookup ("root", VNumber n) m0 = None) ->
  sessions runs E cfg fuel raw e0 tr t e ->
  exec (update E cfg fuel t) tr1 (Ret (t1, Ok b)) -> runs e tr1 e1 ->
  other_calls runs E cfg fuel t1 e1 tr2 t2 e2 ->
  stable_descriptions (tr ++ tr1 ++ tr2) -> every_role ok (tr ++ tr1 ++ tr2) ->
  exec (construct E cfg fuel' (FromRoot raw)) tr3 q -> runs e2 tr3 e3 ->
  (forall c, In (EvNow c) tr3 -> before_expiry t1 c) ->
  q <> Panic /\ forall r, q = Ret r -> exists t3, r = Ok t3 /\ same_trust t1 t3.
Proof.
  intros OK RM E cfg fuel fuel' raw t0 m0 e0 tr t e tr1 t1 b e1 tr2 t2 e2 tr3 q e3 F L0 Top Se X1 Y1 O2 Stb N X3 Y3 B.
  assert (Q0 := from_trusted_shape _ _ _ F). set (r0 := t_root t0) in *. clearbody r0. subst t0.
  rewrite app_assoc in *. assert (N' := every_role_prefix _ _ _ N).
  destruct (sessions_K E cfg m0 r0 S runs ok like OK (RM m0) fuel raw e0 tr t e F L0 Top Se
              (every_role_prefix _ _ _ N')) as [HK M].
  destruct (RM m0 _ _ _ _ Y1 M (fun e H => top_fine _ e (update_stores _ _ _ _ _ _ X1 e H))) as [A1 M1].
  assert (Wp := wp_update_K E cfg m0 r0 (DM m0) (fun _ _ x => x) (fun _ _ => I) I (fun _ => I) fuel t tr HK).
  destruct (wp_sound _ _ _ _ X1 _ _ Wp A1) as [_ [HK1 Se1]]. cbn [fst snd] in *.
  destruct (Se1 b eq_refl) as [St Sm].
  destruct (other_calls_K E cfg m0 r0 S runs ok like OK (RM m0) _ _ _ _ _ _ O2 _ HK1 M1 N) as (HK2 & M2 & (R1 & R2 & R3 & R4)).
  assert (St2 : settled t2).
  { destruct St as (s & d & P1 & P2 & P3). exists s, d. unfold targets_version in *. rewrite R3, R4. auto. }
  destruct Stb as [Stb1 Stb2]. destruct HK2 as [_ HK2]. set (m2 := mem_at m0 ((tr ++ tr1) ++ tr2)) in *.
  destruct (RM m2 _ _ _ [] Y3 M2 (fun e H => top_fine _ e (start_stores _ _ _ _ _ _ X3 e H))) as [A3 _].
  cbn [construct] in X3. unfold with_trusted_root in X3. rewrite F in X3.
  assert (Wp3 : wp (DR m2 t2) (Put (tuf_of_root r0) (client_new E cfg fuel' (tuf_of_root r0)))
                  (fun _ r => exists t', r = Ok t' /\ same_trust t2 t') []).
  { cbn [wp]. intros _. split; [exact I|].
    eapply (replay E cfg m2 r0 t2 _ HK2 St2); [| | |reflexivity|reflexivity].
    - now rewrite R1.
    - intros ? ? ? ? P1 P2. exact (Stb1 _ _ _ _ P1 P2).
    - intros ? ? ? ? ? ? P1 P2. exact (Stb2 _ _ _ _ _ _ P1 P2). }
  assert (A3' : along (rely (DR m2 t2)) [] tr3).
  { intros pre ev post Q. split; [exact (A3 pre ev post Q)|]. intros c ->.
    assert (B' : before_expiry t1 c) by (apply B; rewrite Q; apply in_app_iff; right; now left).
    intros now I. destruct (B' now I) as (B1 & B2 & B3 & B4). rewrite R1, R2, R3, R4. auto. }
  destruct (wp_sound _ _ _ _ X3 _ _ Wp3 A3') as [_ W3]. split.
  - intros ->. exact W3.
  - intros r ->. destruct W3 as (t3 & -> & P1 & P2 & P3 & P4). exists t3. split; [reflexivity|].
    repeat split; congruence.
Qed.

(** The same for the root and the timestamp, whatever the calls before came to. *)
Lemma restart_keeps (S : Type) (runs : S -> list event -> S -> Prop) (ok : string -> Prop) (like : S -> store -> Prop) :
  (forall n, ok n -> n <> "timestamp" /\ n <> "targets") ->
  (forall m0 s tr s' h, runs s tr s' -> like s (mem_at m0 h) ->
      (forall e, In e tr -> fine_event ok e) -> along (mem_rely m0) h tr /\ like s' (mem_at m0 (h ++ tr))) ->
  forall E cfg fuel fuel' raw t0 m0 e0 tr t e tr3 q e3,
  from_trusted_root E raw = Ok t0 -> like e0 m0 ->
  (forall n, rm_version (t_root t0) < n -> lookup ("root", VNumber n) m0 = None) ->
  sessions runs E cfg fuel raw e0 tr t e -> every_role ok tr ->
  rm_version (t_root t) < u32_max ->
  exec (construct E cfg fuel' (FromRoot raw)) tr3 q -> runs e tr3 e3 ->
  (forall c, In (EvNow c) tr3 -> in_time t c) ->
  q <> Panic /\ forall r, q = Ret r -> exists t3, r = Ok t3 /\ t_root t3 = t_root t /\
    (t_timestamp t <> None -> t_timestamp t3 = t_timestamp t).
Proof.
  intros OK RM E cfg fuel fuel' raw t0 m0 e0 tr t e tr3 q e3 F L0 Top Se N Sm X3 Y3 B.
  assert (Q0 := from_trusted_shape _ _ _ F). set (r0 := t_root t0) in *. clearbody r0. subst t0.
  destruct (sessions_K E cfg m0 r0 S runs ok like OK (RM m0) fuel raw e0 tr t e F L0 Top Se N) as [HK M].
  destruct HK as [_ HK]. set (m2 := mem_at m0 tr) in *.
  destruct (RM m2 _ _ _ [] Y3 M (fun e H => top_fine _ e (start_stores _ _ _ _ _ _ X3 e H))) as [A3 _].
  cbn [construct] in X3. unfold with_trusted_root in X3. rewrite F in X3.
  assert (Wp3 : wp (DK m2 t) (Put (tuf_of_root r0) (client_new E cfg fuel' (tuf_of_root r0)))
                  (fun _ r => exists t', r = Ok t' /\ still t t') []).
  { cbn [wp]. intros _. split; [exact I|]. apply (keep E cfg m2 r0 t _ HK Sm); reflexivity. }
  assert (A3' : along (rely (DK m2 t)) [] tr3).
  { intros pre ev post Q. split; [exact (A3 pre ev post Q)|]. intros c ->.
    apply B. rewrite Q. apply in_app_iff. right. now left. }
  destruct (wp_sound _ _ _ _ X3 _ _ Wp3 A3') as [_ W3]. split.
  - intros ->. exact W3.
  - intros r ->. destruct W3 as (t3 & -> & P1 & P2). eauto.
Qed.
