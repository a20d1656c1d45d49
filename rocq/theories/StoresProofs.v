(** * Lemmas for C107 *)
From Coq Require Import String List NArith ZArith Bool Lia.
From Verif Require Import Base BaseFacts Metadata Verify Paths Tuf SpecTuf TufProofs Reader SpecReader ReaderProofs Repo Client SpecClient ClientLogic ClientProofs SpecStores.
Import ListNotations.
Open Scope string_scope.
Open Scope list_scope.

Section stores.
  Context (E : env) (cfg : config) (t0 : tuf).

  Definition DS : demands := mkDemands (fun _ _ => True) (stores_in_order t0) (fun _ => True) True.

  Definition not_failed (h : list event) : Prop := forall h0 path v raw er, h <> h0 ++ [EvStoreMeta path v raw (Err er)].
  Definition nothing_due (h : list event) : Prop := forall path v, ~ to_store t0 h path v.
  Definition calm (h : list event) : Prop := not_failed h /\ nothing_due h.

  Lemma tuf_after_snoc h e : tuf_after t0 (h ++ [e]) = match e with EvPut t => t | _ => tuf_after t0 h end.
  Proof. generalize t0. induction h as [|x h IH]; intros t; cbn; [destruct e; reflexivity|]. destruct x; apply IH. Qed.

  Lemma tail2 {A} (h h0 : list A) e a b : h ++ [e] = h0 ++ [a; b] -> h = h0 ++ [a] /\ e = b.
  Proof. intros Q. change [a; b] with ([a] ++ [b]) in Q. rewrite app_assoc in Q. now apply app_inj_tail in Q. Qed.

  Lemma calm_nil : calm [].
  Proof.
    split.
    - intros h0 path v raw er Q. destruct h0; discriminate.
    - intros path v T. inversion T as [h0 r t' Q _|h0 t' raw Q]; destruct h0; discriminate.
  Qed.

  Definition loud (e : event) : Prop := match e with EvStoreMeta _ _ _ _ | EvPut _ => True | _ => False end.
  Lemma calm_more h e : ~ loud e -> calm (h ++ [e]).
  Proof.
    intros L. split.
    - intros h0 path v raw er Q. apply app_inj_tail in Q as [_ ->]. now apply L.
    - intros path v T. inversion T as [h0 r t' Q _|h0 t' raw Q].
      + apply app_inj_tail in Q as [_ ->]. now apply L.
      + apply tail2 in Q as [_ ->]. now apply L.
  Qed.
  Lemma not_failed_put h t : not_failed (h ++ [EvPut t]).
  Proof. intros h0 path v raw er Q. now apply app_inj_tail in Q as [_ Q]. Qed.
  Lemma calm_put h t : (forall r, ~ newly r (tuf_after t0 h) t) -> calm (h ++ [EvPut t]).
  Proof.
    intros N. split; [apply not_failed_put|]. intros path v T. inversion T as [h0 r t' Q H|h0 t' raw Q].
    - apply app_inj_tail in Q as [-> Q]. inversion Q; subst. now apply (N r).
    - now apply tail2 in Q as [_ Q].
  Qed.
  Lemma calm_stored h path v raw : (path <> "root" \/ v <> VNone) -> calm (h ++ [EvStoreMeta path v raw (Ok tt)]).
  Proof.
    intros N. split.
    - intros h0 path' v' raw' er Q. now apply app_inj_tail in Q as [_ Q].
    - intros path' v' T. inversion T as [h0 r t' Q H|h0 t' raw' Q].
      + now apply app_inj_tail in Q as [_ Q].
      + apply tail2 in Q as [_ Q]. inversion Q; subst. destruct N as [N|N]; now apply N.
  Qed.

  Lemma plain h e : calm h -> (match e with EvStoreMeta _ _ _ _ => False | _ => True end) -> stores_in_order t0 h e.
  Proof. intros [C1 C2] P. split; [exact C1|]. destruct e; auto; contradiction. Qed.

  (** What a part of an update leaves behind. *)
  Definition ended {A} (h : list event) (x : tuf * result A) : Prop :=
    tuf_after t0 h = fst x /\ nothing_due h /\
    match snd x with
    | Ok _ => not_failed h
    | Err e => forall h0 path v raw er, h = h0 ++ [EvStoreMeta path v raw (Err er)] -> e = er
    end.
  Lemma ended_calm {A} h t (r : result A) : calm h -> tuf_after t0 h = t -> ended h (t, r).
  Proof.
    intros [C1 C2] T. split; [exact T|]. split; [exact C2|]. destruct r; cbn; [exact C1|].
    intros h0 path v raw er Q. now apply C1 in Q.
  Qed.

  Lemma wp_get s r path v max hash h t : calm h -> tuf_after t0 h = t ->
    wp DS (fetch_metadata E s r path v max hash)
      (fun h' x => calm h' /\ tuf_after t0 h' = t /\ forall raw, x = Ok raw ->
         exists s p w m hh ans, h' = h ++ [EvFetchMeta s p w m hh ans] /\ answered ans raw) h.
  Proof.
    intros C T. unfold fetch_metadata. destruct (repo_check r path); cbn [wp]; [|repeat split; auto; try apply C; discriminate].
    intros ans _. split; [now apply plain|]. split; [now apply calm_more|]. split; [now rewrite tuf_after_snoc|].
    intros raw R. apply read_metadata_ok in R as (R1 & _). exists s, path, v, max, hash, ans. auto.
  Qed.

  Lemma only_due h path v t : (forall r, newly r (tuf_after t0 h) t -> path = file_of r /\ v = VNone) ->
    forall path' v', to_store t0 (h ++ [EvPut t]) path' v' -> path' = path /\ v' = v.
  Proof.
    intros H path' v' T. inversion T as [h0 r t' Q N|h0 t' raw Q].
    - apply app_inj_tail in Q as [-> Q]. inversion Q; subst. destruct (H r N) as [-> ->]. now split.
    - now apply tail2 in Q as [_ Q].
  Qed.

  (** Storing the document that has just become trusted; [r] is not root. *)
  Lemma wp_hand r h0 raw t' : r <> Root -> newly r (tuf_after t0 h0) t' ->
    (forall r', newly r' (tuf_after t0 h0) t' -> r' = r) -> received h0 raw ->
    wp DS (do r1 <- store_metadata r (from_role r) VNone raw in
           match r1 with Err e => Ret (t', Err e) | Ok _ => Ret (t', Ok true) end) ended (h0 ++ [EvPut t']).
  Proof.
    intros NR N U Rc. assert (F : from_role r = file_of r) by (destruct r; reflexivity).
    assert (K : repo_check r (from_role r) = Ok tt) by (destruct r; reflexivity).
    unfold store_metadata. rewrite K, F. cbn [bind wp]. intros ans _. split.
    - split; [apply not_failed_put|]. split; [now apply (just_trusted _ _ h0 r t')|]. split.
      + destruct Rc as (h1 & s & p & v & m & hh & a & rest & -> & R1 & R2).
        exists h1, s, p, v, m, hh, a, (rest ++ [EvPut t']). split; [now rewrite <- app_assoc|]. split; [|exact R2].
        apply Forall_app. split; [exact R1|]. constructor; [exact I|constructor].
      + apply only_due. intros r' H. apply U in H as ->. now split.
    - assert (T : tuf_after t0 ((h0 ++ [EvPut t']) ++ [EvStoreMeta (file_of r) VNone raw ans]) = t') by now rewrite !tuf_after_snoc.
      destruct ans as [[]|e]; cbn [wp].
      + apply ended_calm; [|exact T]. apply calm_stored. left. destruct r; cbn; congruence.
      + split; [exact T|]. split.
        * intros path' v' X. inversion X as [h1 r1 t1 Q _|h1 t1 raw1 Q]; [now apply app_inj_tail in Q as [_ Q]|].
          now apply tail2 in Q as [_ Q].
        * intros h1 path v raw' er Q. apply app_inj_tail in Q as [_ Q]. now inversion Q.
  Qed.

  Lemma received_now h s p v m hh ans raw c : answered ans raw -> received ((h ++ [EvFetchMeta s p v m hh ans]) ++ [EvNow c]) raw.
  Proof.
    intros A. exists h, s, p, v, m, hh, ans, [EvNow c]. rewrite <- app_assoc. split; [reflexivity|]. split; [|exact A].
    constructor; [exact I|constructor].
  Qed.

  Lemma wp_stores_timestamp s t h : calm h -> tuf_after t0 h = t ->
    wp DS (update_timestamp_with_repos E cfg s true t) ended h.
  Proof.
    intros C T. unfold update_timestamp_with_repos. eapply wp_seq; [exact (wp_get _ _ _ _ _ _ h t C T)|].
    intros h1 [raw|e] (C1 & T1 & R); [|now apply ended_calm]. destruct (R raw eq_refl) as (s' & p & v & m & hh & ans & -> & A).
    cbn [wp]. intros c _. split; [now apply plain|]. destruct (update_timestamp E t c raw) as [t' r] eqn:U.
    set (h2 := (_ ++ [EvNow c])) in *. assert (C2 : calm h2) by (apply calm_more; auto).
    assert (T2 : tuf_after t0 h2 = t) by (unfold h2; now rewrite tuf_after_snoc).
    cbn [wp]. intros _. split; [now apply plain|]. apply update_timestamp_inv in U as (U1 & U2 & U3 & U4 & U5).
    destruct r as [[new|]|e].
    - destruct U5 as ((_ & V & _) & U5 & _). apply (wp_hand Timestamp); [discriminate| | |].
      + rewrite T2. cbn. rewrite U5. split; [discriminate|]. intros Q. unfold timestamp_version in V. rewrite <- Q in V. cbn in V. lia.
      + rewrite T2. intros [] N; cbn in N; try reflexivity; destruct U4; intuition congruence.
      + now apply received_now.
    - destruct U5 as [-> _]. apply ended_calm; [|now rewrite tuf_after_snoc]. apply calm_put. rewrite T2. intros []; cbn; intuition.
    - destruct U5 as [U5 _]. apply ended_calm; [|now rewrite tuf_after_snoc]. apply calm_put. rewrite T2. intros []; cbn; destruct U4; intuition congruence.
  Qed.

  Lemma wp_stores_snapshot s con t h : calm h -> tuf_after t0 h = t ->
    wp DS (update_snapshot_with_repos E s true con t) ended h.
  Proof.
    intros C T. unfold update_snapshot_with_repos. destruct (t_timestamp t) as [ts|] eqn:Ets; [|now apply ended_calm].
    destruct (_ <=? _)%N; [now apply ended_calm|]. destruct (hash_preference _); [|now apply ended_calm].
    eapply wp_seq; [exact (wp_get _ _ _ _ _ _ h t C T)|].
    intros h1 [raw|e] (C1 & T1 & R); [|now apply ended_calm]. destruct (R raw eq_refl) as (s' & p & v & m & hh & ans & -> & A).
    cbn [wp]. intros c _. split; [now apply plain|]. destruct (update_snapshot E t c raw) as [t' r] eqn:U.
    set (h2 := (_ ++ [EvNow c])) in *. assert (C2 : calm h2) by (apply calm_more; auto).
    assert (T2 : tuf_after t0 h2 = t) by (unfold h2; now rewrite tuf_after_snoc).
    cbn [wp]. intros _. split; [now apply plain|]. apply update_snapshot_inv in U.
    destruct r as [[|]|e].
    - destruct U as (new & (_ & ts' & Q & _ & V & _ & W) & U1 & U2 & U3 & U4 & _).
      apply (wp_hand Snapshot); [discriminate| | |].
      + rewrite T2. cbn. rewrite U3. split; [discriminate|]. intros X. unfold snapshot_version in V. rewrite <- X in V. cbn in V. lia.
      + rewrite T2. intros [] N; cbn in N; try reflexivity; [intuition congruence| |intuition congruence].
        rewrite U4 in N. destruct (_ =? _)%N; intuition congruence.
      + now apply received_now.
    - destruct U as [-> _]. apply ended_calm; [|now rewrite tuf_after_snoc]. apply calm_put. rewrite T2. intros []; cbn; intuition.
    - destruct U as [-> _]. apply ended_calm; [|now rewrite tuf_after_snoc]. apply calm_put. rewrite T2. intros []; cbn; intuition.
  Qed.

  Lemma wp_stores_targets s con t h : calm h -> tuf_after t0 h = t ->
    wp DS (update_targets_with_repos E s true con t) ended h.
  Proof.
    intros C T. unfold update_targets_with_repos. destruct (t_snapshot t) as [sn|] eqn:Esn; [|now apply ended_calm].
    destruct (lookup _ _) as [desc|]; [|now apply ended_calm].
    destruct (_ <=? _)%N; [now apply ended_calm|]. destruct (hash_preference _); [|now apply ended_calm].
    eapply wp_seq; [exact (wp_get _ _ _ _ _ _ h t C T)|].
    intros h1 [raw|e] (C1 & T1 & R); [|now apply ended_calm]. destruct (R raw eq_refl) as (s' & p & v & m & hh & ans & -> & A).
    cbn [wp]. intros c _. split; [now apply plain|]. destruct (update_targets E t c raw) as [t' r] eqn:U.
    set (h2 := (_ ++ [EvNow c])) in *. assert (C2 : calm h2) by (apply calm_more; auto).
    assert (T2 : tuf_after t0 h2 = t) by (unfold h2; now rewrite tuf_after_snoc).
    cbn [wp]. intros _. split; [now apply plain|]. apply update_targets_inv in U.
    destruct r as [[|]|e].
    - destruct U as (new & (_ & s0 & d & Q & _ & _ & V & _ & W & _) & ->).
      apply (wp_hand Targets); [discriminate| | |].
      + rewrite T2. cbn. split; [discriminate|]. intros X. unfold targets_version in V. rewrite <- X in V. cbn in V. lia.
      + rewrite T2. intros [] N; cbn in N; try reflexivity; intuition congruence.
      + now apply received_now.
    - destruct U as [-> _]. apply ended_calm; [|now rewrite tuf_after_snoc]. apply calm_put. rewrite T2. intros []; cbn; intuition.
    - destruct U as [-> _]. apply ended_calm; [|now rewrite tuf_after_snoc]. apply calm_put. rewrite T2. intros []; cbn; intuition.
  Qed.

  Lemma wp_stores_root fuel s : forall t u h, calm h -> tuf_after t0 h = t ->
    wp DS (root_loop E cfg fuel s true t u) ended h.
  Proof.
    induction fuel as [|fuel IH]; intros t u h C T; [exact I|]. cbn [root_loop]. destruct (_ <=? _)%N; [exact I|].
    eapply wp_seq; [exact (wp_get _ _ _ _ _ _ h t C T)|].
    intros h1 [raw|e] (C1 & T1 & R); [|destruct e; now apply ended_calm].
    destruct (R raw eq_refl) as (s' & p & v & m & hh & ans & -> & A). set (h1 := h ++ _) in *.
    destruct (update_root E t raw) as [t' r] eqn:U. cbn [wp]. intros _. split; [now apply plain|].
    destruct r as [[]|e].
    2: { apply update_root_err in U as ->. apply ended_calm; [|now rewrite tuf_after_snoc]. apply calm_put. rewrite T1. intros []; cbn; intuition. }
    apply update_root_ok in U as (new & (_ & _ & V & _) & ->). set (t' := mkTuf new None None None []) in *.
    unfold store_metadata. cbn [bind wp repo_check fuzzy_matches_path from_role role_name String.eqb Ascii.eqb Bool.eqb negb].
    assert (V' : rm_version (t_root t') = (rm_version (t_root t) + 1)%N) by exact V.
    assert (N : newly Root t t') by (cbn; intros Q; rewrite Q in V; lia).
    intros a1 _. split.
    - split; [apply not_failed_put|]. split; [apply (just_trusted _ _ h1 Root t'); [reflexivity|now rewrite T1]|]. split.
      + exists h, s', p, v, m, hh, ans, [EvPut t']. unfold h1. rewrite <- app_assoc. split; [reflexivity|]. split; [|exact A].
        constructor; [exact I|constructor].
      + apply only_due. rewrite T1. intros [] H; cbn in H; try (now split); exfalso; intuition congruence.
    - assert (F : forall h0 p v e, @ended bool (h0 ++ [EvStoreMeta p v raw (Err e)]) (tuf_after t0 h0, Err e)).
      { intros h0 p0 v0 e. split; [now rewrite tuf_after_snoc|]. split.
        - intros path' v' X. inversion X as [g1 r1 t1 Q _|g1 t1 raw1 Q]; [now apply app_inj_tail in Q as [_ Q]|].
          now apply tail2 in Q as [_ Q].
        - intros g1 path v1 raw' er Q. apply app_inj_tail in Q as [_ Q]. now inversion Q. }
      assert (T2 : tuf_after t0 (h1 ++ [EvPut t']) = t') by now rewrite tuf_after_snoc.
      destruct a1 as [[]|e]; cbn [wp]; [|pose proof (F (h1 ++ [EvPut t']) "root" VNone e) as X; rewrite T2 in X; exact X].
      intros a2 _. set (h3 := (_ ++ [EvStoreMeta "root" VNone raw (Ok tt)])) in *.
      assert (Q3 : h3 = h1 ++ [EvPut t'; EvStoreMeta "root" VNone raw (Ok tt)]) by (unfold h3; now rewrite <- app_assoc).
      assert (T3 : tuf_after t0 h3 = t') by (unfold h3; now rewrite tuf_after_snoc).
      split.
      + split. { intros g path v1 raw1 er Q. unfold h3 in Q. now apply app_inj_tail in Q as [_ Q]. }
        rewrite <- V'. split; [now apply (root_number _ _ h1 t' raw)|]. split.
        * exists h, s', p, v, m, hh, ans, [EvPut t'; EvStoreMeta "root" VNone raw (Ok tt)]. rewrite Q3. unfold h1. rewrite <- app_assoc.
          split; [reflexivity|]. split; [|exact A]. repeat (constructor; [exact I|]). constructor.
        * intros path' v' X. inversion X as [g1 r1 t1 Q _|g1 t1 raw1 Q].
          -- unfold h3 in Q. now apply app_inj_tail in Q as [_ Q].
          -- unfold h3 in Q. apply tail2 in Q as [Q _]. apply app_inj_tail in Q as [_ Q]. inversion Q. now split.
      + destruct a2 as [[]|e]; cbn [wp]; [|pose proof (F h3 "root" (VNumber (rm_version (t_root t) + 1)) e) as X; rewrite T3 in X; exact X].
        apply IH; [apply calm_stored; right; discriminate|now rewrite tuf_after_snoc].
  Qed.

  Lemma wp_stores_update fuel t h : calm h -> tuf_after t0 h = t -> wp DS (update E cfg fuel t) ended h.
  Proof.
    intros C T. unfold update, update_root_with_repos. eapply (wp_seq DS _ _ ended).
    - eapply wp_seq; [now apply wp_stores_root|]. clear t h C T. intros h [t [u|e]] (T & D & F); [|now split].
      cbn [fst snd] in T, F. assert (C : calm h) by now split. cbn [wp]. intros c _. split; [now apply plain|].
      assert (C2 : calm (h ++ [EvNow c])) by (apply calm_more; auto).
      destruct (expired _ _); cbn [wp]; (apply ended_calm; [exact C2|now rewrite tuf_after_snoc]).
    - clear t h C T. intros h [t [u|e]] (T & D & F); [|now split]. cbn [fst snd] in T, F.
      eapply wp_seq; [apply wp_stores_timestamp; [now split|exact T]|].
      clear t h T D F. intros h [t [u1|e]] (T & D & F); [|now split]. cbn [fst snd] in T, F.
      eapply wp_seq; [apply wp_stores_snapshot; [now split|exact T]|].
      clear t h T D F. intros h [t [u2|e]] (T & D & F); [|now split]. cbn [fst snd] in T, F.
      eapply wp_seq; [apply wp_stores_targets; [now split|exact T]|].
      clear t h T D F. intros h [t [u3|e]] (T & D & F); now split.
  Qed.
End stores.
