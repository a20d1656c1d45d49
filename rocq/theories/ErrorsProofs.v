(** * Lemmas for C109 *)
From Coq Require Import String List NArith ZArith Bool Lia.
From Verif Require Import Base BaseFacts JsonValue JsonText Metadata Verify Paths Tuf SpecVerify VerifyProofs SpecTuf TufProofs TufHistory Reader SpecReader ReaderProofs
     Repo Client SpecClient ClientLogic ClientProofs Serde Keys Shims SpecMeta Props_Json SpecErrors.
Import ListNotations.
Open Scope string_scope.
Open Scope list_scope.

(** ** Reading *)

Lemma contains_fun rs b e : contains rs b e -> forall b' e', contains rs b' e' -> b' = b /\ e' = e.
Proof.
  induction 1 as [|rest|k rest|rest b e H IH|d rest b e N H IH]; intros b' e' X; inversion X; subst; auto; try congruence.
  match goal with K : contains rest _ _ |- _ => destruct (IH _ _ K) as [-> ->] end. auto.
Qed.

Lemma contains_total rs : exists b e, contains rs b e.
Proof.
  induction rs as [|[|k|d] rest (b & e & IH)].
  - exists "", None. constructor.
  - exists b, e. now constructor.
  - exists "", (Some k). constructor.
  - destruct (String.eqb_spec d "") as [-> |N]; [exists "", None; constructor|]. exists (d ++ b)%string, e. now constructor.
Qed.

Lemma length_limit max b : length_ok (limit max) b <-> length_ok (option_get u64_max max) b /\ length_ok u64_max b.
Proof. unfold length_ok, limit. destruct max as [m|]; cbn [option_get]; lia. Qed.

Lemma fails_fun C e er er' : fails_with C e er -> fails_with C e er' -> er' = er.
Proof.
  intros F G. inversion F; subst; inversion G; subst; try reflexivity;
    repeat match goal with
    | H : contains ?rs _ _, K : contains ?rs _ _ |- _ =>
        let Q := fresh in destruct (contains_fun _ _ _ H _ _ K) as [-> Q]; clear K; try (injection Q as ->); subst
    end; try reflexivity; try contradiction; try discriminate.
Qed.

Definition known_hash (hash : option (hash_alg * bytes)) : Prop := forall x v, hash <> Some (HashUnknown x, v).

Lemma read_metadata_cases C s path v max hash ans : known_hash hash ->
  match read_metadata C max hash ans with
  | Ok raw => answered ans raw /\ forall er, ~ fails_with C (EvFetchMeta s path v max hash ans) er
  | Err er => fails_with C (EvFetchMeta s path v max hash ans) er
  end.
Proof.
  intros K. unfold read_metadata. destruct ans as [rs|e]; cbn [rbind]; [|constructor].
  destruct (safe_new (option_get u64_max max) hash) as [sr|e] eqn:S.
  2:{ exfalso. unfold safe_new in S. destruct hash as [[a w]|]; [|discriminate]. destruct a as [| |x]; try discriminate. exact (K x w eq_refl). }
  cbn [rbind]. destruct (contains_total rs) as (b & o & B).
  pose proof (read_to_end_spec C _ _ _ _ _ _ S B) as [[N ->]|(L1 & L2 & H)].
  - eapply too_long; [exact B|]. intros L. now apply length_limit in L.
  - assert (L : length_ok (limit max) b) by now apply length_limit.
    destruct o as [k|].
    + rewrite H. destruct k; exact (broke_off C s path v max hash rs b _ B L).
    + destruct H as [[HO ->]|[HO ->]]; [|eapply other_hash; eassumption]. split; [now exists rs|].
      intros er F. inversion F; subst;
      match goal with B' : contains rs _ _ |- _ => destruct (contains_fun _ _ _ B _ _ B') as [? ?]; subst end; try discriminate; contradiction.
Qed.

(** ** Errors about documents *)

Section Json.
  Context (C : crypto) (o : hash_order).
  Let E : env := mkEnv C o (json_interchange C).

  Lemma parse_err s e : parse s = Err e -> e = Encoding.
  Proof.
    unfold parse, finish. destruct (feed _ _ _) as [st m|]; [|intros H; now inversion H].
    destruct st; [|intros H; now inversion H]. destruct m; try (intros H; now inversion H).
    destruct (number _ _); intros H; now inversion H.
  Qed.
  Lemma from_slice_err {A} (d : decoder A) s e : json_from_slice d s = Err e -> e = Encoding.
  Proof.
    unfold json_from_slice. destruct (parse s) as [j|e'] eqn:P; cbn [rbind].
    - unfold decoded. destruct (d j); [discriminate|]. intros H. now inversion H.
    - intros H. inversion H; subst. now apply parse_err in P.
  Qed.
  Lemma canonicalize_err j e : canonicalize j = Err e -> e = Opaque.
  Proof.
    unfold canonicalize. destruct (JsonProofs.convert_cases j) as [[_ ->]|[_ ->]]; cbn [rbind]; [discriminate|].
    intros H. now inversion H.
  Qed.

  Lemma verify_err r raw th keys e : verify_signatures E r raw th keys = Err e -> about_document e.
  Proof.
    unfold verify_signatures, about_document. destruct (_ <? _)%N; [intros H; inversion H; auto|].
    cbn [E e_ic json_interchange ic_envelope ic_canonicalize ic_from_slice].
    destruct (json_from_slice d_signed raw) as [[sigs j]|e'] eqn:En; cbn [rbind].
    2:{ apply from_slice_err in En as ->. intros H. inversion H; auto. }
    destruct sigs; [intros H; inversion H; auto|].
    destruct (canonicalize j) as [b|e'] eqn:Ca; cbn [rbind].
    2:{ apply canonicalize_err in Ca as ->. intros H. inversion H; auto. }
    destruct (0 <? _)%N; [intros H; inversion H; auto|]. intros H. apply from_slice_err in H. auto.
  Qed.

  Lemma vf : about_document VerificationFailure.
  Proof. right. now right. Qed.

  Lemma root_refused t raw t' e c : update_root E t raw = (t', Err e) -> refused E t c raw Root e.
  Proof.
    intros U. constructor.
    - revert U. unfold update_root. destruct (verify_signatures _ _ _ _ _) as [n|e1] eqn:V1; cbn [rbind].
      2:{ intros H. injection H as _ <-. now apply verify_err in V1. }
      destruct (verify_signatures _ _ _ _ (root_keys n)) as [n'|e1] eqn:V2; cbn [rbind].
      2:{ intros H. injection H as _ <-. now apply verify_err in V2. }
      destruct (_ <=? _)%N; [intros H; injection H as _ <-; apply vf|]. destruct (negb _); intros H; [injection H as _ <-; apply vf|discriminate].
    - intros new S. assert (K : update_root E t raw = (mkTuf new None None None [], Ok tt)) by (apply update_root_ok; eauto).
      rewrite K in U. discriminate.
  Qed.

  Lemma timestamp_refused t c raw t' e : update_timestamp E t c raw = (t', Err e) -> refused E t c raw Timestamp e.
  Proof.
    unfold update_timestamp. change (trusted_timestamp_version t) with (timestamp_version t).
    destruct (verify_signatures _ _ _ _ _) as [n|e1] eqn:V1.
    2:{ intros H. injection H as _ <-. constructor; [now apply verify_err in V1|]. intros new T.
        apply (verify_trusted E (t_root t) Timestamp) in T. change (verify_signatures E Timestamp raw (rd_threshold (rm_timestamp (t_root t))) (timestamp_keys (t_root t)) = Ok new) in T. congruence. }
    apply (verify_trusted E (t_root t) Timestamp) in V1 as T.
    destruct (N.compare_spec (tm_version n) (timestamp_version t)) as [Q|L|G]; [discriminate| |].
    - intros H. injection H as _ <-. constructor; [apply vf|]. intros new T'.
      now rewrite (authentic_fun E Timestamp raw _ _ _ _ _ _ T' T).
    - destruct (expired (tm_expires n) (at_new c)) eqn:X; [|discriminate]. intros H. injection H as _ <-.
      apply expired_true in X. exact (expired_timestamp E t c raw n T G X).
  Qed.

  Lemma snapshot_refused t c raw t' e : t_timestamp t <> None ->
    update_snapshot E t c raw = (t', Err e) -> refused E t c raw Snapshot e.
  Proof.
    intros N U. apply update_snapshot_inv in U as K. destruct K as [_ K]. revert U.
    unfold update_snapshot. unfold trusted_root_unexpired at 1.
    destruct (expired (rm_expires (t_root t)) (at_root c)) eqn:X1; cbn [rbind].
    { intros H. injection H as _ <-. apply expired_true in X1. apply under_expired_root; auto. }
    unfold trusted_timestamp_unexpired at 1. destruct (t_timestamp t) as [ts|] eqn:T; [|contradiction].
    destruct (expired (tm_expires ts) (at_timestamp c)) eqn:X2; cbn [rbind].
    { intros H. injection H as _ <-. apply expired_true in X2. now apply (under_expired_timestamp _ _ _ _ ts). }
    intros H. apply refused_snapshot; [|exact K]. revert H.
    destruct (_ ?= _)%N; [discriminate| |].
    - intros H. injection H as _ <-. apply vf.
    - destruct (verify_signatures _ _ _ _ _) as [n|e1] eqn:V1; cbn [rbind].
      2:{ intros H. injection H as _ <-. now apply verify_err in V1. }
      destruct (negb _); [intros H; injection H as _ <-; apply vf|]. destruct (_ <? _)%N; [intros H; injection H as _ <-; apply vf|discriminate].
  Qed.

  Lemma targets_refused t c raw t' e : t_snapshot t <> None ->
    update_targets E t c raw = (t', Err e) -> refused E t c raw Targets e.
  Proof.
    intros N U. apply update_targets_inv in U as K. destruct K as [_ K]. revert U.
    unfold update_targets. unfold trusted_root_unexpired at 1.
    destruct (expired (rm_expires (t_root t)) (at_root c)) eqn:X1; cbn [rbind].
    { intros H. injection H as _ <-. apply expired_true in X1. apply under_expired_root; auto. }
    unfold trusted_snapshot_unexpired at 1. destruct (t_snapshot t) as [s|] eqn:T; [|contradiction].
    destruct (expired (sm_expires s) (at_snapshot c)) eqn:X2; cbn [rbind].
    { intros H. injection H as _ <-. apply expired_true in X2. now apply (under_expired_snapshot _ _ _ _ s). }
    destruct (lookup _ _) as [d|]; [|intros H; injection H as _ <-; apply refused_targets; [apply vf|exact K]].
    destruct (_ ?= _)%N; [discriminate| |].
    - intros H. injection H as _ <-. apply refused_targets; [apply vf|exact K].
    - destruct (verify_signatures _ _ _ _ _) as [n|e1] eqn:V1; cbn [rbind].
      2:{ intros H. injection H as _ <-. apply refused_targets; [now apply verify_err in V1|exact K]. }
      destruct (negb _); [intros H; injection H as _ <-; apply refused_targets; [apply vf|exact K]|].
      destruct (expired (tg_expires n) (at_new c)) eqn:X3; [|discriminate]. intros H. injection H as _ <-.
      apply (verify_trusted E (t_root t) Targets) in V1. apply expired_true in X3. exact (expired_targets E t c raw n V1 X3).
  Qed.

  Lemma root_accepted t raw t' c er : update_root E t raw = (t', Ok tt) -> ~ refused E t c raw Root er.
  Proof.
    intros U Rf. apply update_root_ok in U as (new & S & _). inversion Rf as [e A N| | | | | |r X| |]; subst.
    - now apply (N new).
    - destruct X; discriminate.
  Qed.
  Lemma timestamp_accepted t c raw t' x er : update_timestamp E t c raw = (t', Ok x) -> ~ refused E t c raw Timestamp er.
  Proof.
    intros U Rf. apply update_timestamp_inv in U as (_ & _ & _ & _ & U).
    assert (K : exists new, trusted_by E (t_root t) Timestamp raw new /\
              ((timestamp_version t < tm_version new)%N /\ fresh (tm_expires new) (at_new c) \/ tm_version new = timestamp_version t)).
    { destruct x as [new|]; [destruct U as ((T & V & F) & _)|destruct U as (_ & new & T & V)]; exists new; auto. }
    destruct K as (new & T & K). inversion Rf as [|e A N|new' T' V' F'| | | |r X| |]; subst.
    - apply N in T. destruct K as [[K _]|K]; lia.
    - rewrite (authentic_fun E Timestamp raw _ _ _ _ _ _ T' T) in V', F'. destruct K as [[_ K]|K]; [contradiction|lia].
    - destruct X; discriminate.
  Qed.
  Lemma snapshot_accepted t c raw t' er : update_snapshot E t c raw = (t', Ok true) -> ~ refused E t c raw Snapshot er.
  Proof.
    intros U Rf. apply update_snapshot_inv in U as (new & S & _). inversion Rf as [| | |e A N| | |r X F|ts T F|]; subst.
    - now apply (N new).
    - destruct S as (S & _). contradiction.
    - destruct S as (_ & ts' & T' & S & _). rewrite T in T'. injection T' as <-. contradiction.
  Qed.
  Lemma targets_accepted t c raw t' er : update_targets E t c raw = (t', Ok true) -> ~ refused E t c raw Targets er.
  Proof.
    intros U Rf. apply update_targets_inv in U as (new & S & _). inversion Rf as [| | | |e A N|new' T F|r X F| |s T F]; subst.
    - now apply (N new).
    - destruct S as (_ & s & d & _ & _ & _ & _ & T' & _ & S).
      rewrite (authentic_fun E Targets raw _ _ _ _ _ _ T T') in F. contradiction.
    - destruct S as (S & _). contradiction.
    - destruct S as (_ & s' & d & T' & S & _). rewrite T in T'. injection T' as <-. contradiction.
  Qed.

  (** ** The parts of an update *)

  Context (cfg : config) (t0 : tuf).

  (** All calls have worked out, and no document has been refused. *)
  Definition well (h : list event) : Prop :=
    Forall (went_well C) h /\ forall h1 t' rest er, h = h1 ++ EvPut t' :: rest -> ~ refusal E t0 h1 er.
  Definition DE : demands := mkDemands (fun _ _ => True) (fun h _ => well h) (fun _ => True) True.

  Definition failed_call (h : list event) (er : error) : Prop :=
    exists h0 ev, h = h0 ++ [ev] /\ fails_with C ev er /\ ~ no_next_root ev er.

  Definition outcome {A} (P : tuf -> Prop) (h : list event) (x : tuf * result A) : Prop :=
    reachable E (fst x) /\ tuf_after t0 h = fst x /\
    match snd x with
    | Ok _ => well h /\ P (fst x)
    | Err er => (Forall (went_well C) h /\ cause E t0 h er) \/ failed_call h er
    end.

  Lemma after_snoc t h e : tuf_after t (h ++ [e]) = match e with EvPut t' => t' | _ => tuf_after t h end.
  Proof. revert t. induction h as [|x h IH]; intros t; cbn; [destruct e; reflexivity|]. destruct x; apply IH. Qed.

  Definition no_put (e : event) : Prop := match e with EvPut _ => False | _ => True end.
  Lemma well_more h e : well h -> no_put e -> went_well C e -> well (h ++ [e]).
  Proof.
    intros [W1 W2] P N. split; [apply Forall_app; split; [exact W1|]; constructor; [exact N|constructor]|].
    intros h1 t' rest er Q. destruct rest as [|x rest] using rev_ind.
    - apply app_inj_tail in Q as [_ ->]. contradiction P.
    - rewrite app_comm_cons, app_assoc in Q. apply app_inj_tail in Q as [-> _]. now eapply W2.
  Qed.
  Lemma well_put h t : well h -> (forall er, ~ refusal E t0 h er) -> well (h ++ [EvPut t]).
  Proof.
    intros [W1 W2] N. split.
    - apply Forall_app; split; [exact W1|]; constructor; [|constructor]. intros er F. inversion F.
    - intros h1 t' rest er Q. destruct rest as [|x rest] using rev_ind.
      + apply app_inj_tail in Q as [-> _]. apply N.
      + rewrite app_comm_cons, app_assoc in Q. apply app_inj_tail in Q as [-> _]. now eapply W2.
  Qed.
  Lemma quiet_now c : went_well C (EvNow c).
  Proof. intros er F. inversion F. Qed.
  Lemma quiet_put t : went_well C (EvPut t).
  Proof. intros er F. inversion F. Qed.
  Lemma quiet_stored p v raw : went_well C (EvStoreMeta p v raw (Ok tt)).
  Proof. intros er F. inversion F. Qed.

  Lemma well_nil : well [].
  Proof. split; [constructor|]. intros h1 t' rest er Q. destruct h1; discriminate. Qed.

  (** Whether the document just received is refused does not depend on how one looks at it. *)
  Lemma refusal_inv h r v max hash ans raw c er : answered ans raw ->
    refusal E t0 (h ++ EvFetchMeta Remote (role_name r) v max hash ans :: (match r with Root => [] | _ => [EvNow c] end)) er ->
    exists c', (r <> Root -> c' = c) /\ refused E (tuf_after t0 h) c' raw r er.
  Proof.
    intros An (h0 & r' & v' & max' & hash' & ans' & raw' & c' & Q & An' & Rf). exists c'.
    assert (K : h0 = h /\ r' = r /\ ans' = ans /\ (r <> Root -> c' = c)).
    { assert (G : forall (a b : list event) x y c1 c2, a ++ [x; EvNow c1] = b ++ [y; EvNow c2] -> a = b /\ x = y /\ c1 = c2).
      { intros a b x y c1 c2 X. change (a ++ [x] ++ [EvNow c1] = b ++ [y] ++ [EvNow c2]) in X. rewrite !app_assoc in X.
        apply app_inj_tail in X as [X Y]. apply app_inj_tail in X as [-> ->]. inversion Y. auto. }
      assert (M : forall (a b : list event) x y c1, a ++ [x] = b ++ [y; EvNow c1] -> x = EvNow c1).
      { intros a b x y c1 X. change (a ++ [x] = b ++ [y] ++ [EvNow c1]) in X. rewrite app_assoc in X. now apply app_inj_tail in X as [_ X]. }
      destruct r, r'; cbn [role_name] in Q;
        try (symmetry in Q; apply M in Q; discriminate); try (apply M in Q; discriminate);
        try (apply app_inj_tail in Q as [Q1 Q2]; inversion Q2; subst; repeat split; congruence);
        apply G in Q as (Q1 & Q2 & Q3); inversion Q2; subst; repeat split; auto. }
    destruct K as (-> & -> & -> & K). split; [exact K|].
    destruct An as (rs & -> & B), An' as (rs' & Q' & B'). injection Q' as <-. now destruct (contains_fun _ _ _ B _ _ B') as [-> _].
  Qed.

  Lemma wp_ask r v max hash h : well h -> known_hash hash ->
    wp DE (fetch_metadata E Remote r (from_role r) v max hash)
      (fun h' x => exists ans, h' = h ++ [EvFetchMeta Remote (role_name r) v max hash ans] /\
         match x with
         | Ok raw => answered ans raw /\ well h'
         | Err er => fails_with C (EvFetchMeta Remote (role_name r) v max hash ans) er
         end) h.
  Proof.
    intros W K. unfold fetch_metadata. assert (R : repo_check r (from_role r) = Ok tt) by (destruct r; reflexivity).
    rewrite R. change (from_role r) with (role_name r). cbn [wp]. intros ans _. split; [exact W|]. exists ans. split; [reflexivity|].
    change (e_crypto E) with C. pose proof (read_metadata_cases C Remote (role_name r) v max hash ans K) as X.
    destruct (read_metadata C max hash ans); [|exact X]. destruct X as [X1 X2]. split; [exact X1|]. apply well_more; [exact W|exact I|].
    intros er F. now apply X2 in F.
  Qed.

  Lemma wp_keep {A} r raw t (P : tuf -> Prop) (k : prog (tuf * result A)) v h :
    well h -> tuf_after t0 h = t -> reachable E t ->
    (forall h', well h' -> tuf_after t0 h' = t -> wp DE k (outcome P) h') ->
    wp DE (do r1 <- store_metadata r (from_role r) v raw in
           match r1 with Err e => Ret (t, Err e) | Ok _ => k end) (outcome P) h.
  Proof.
    intros W T R K. assert (Q : repo_check r (from_role r) = Ok tt) by (destruct r; reflexivity).
    unfold store_metadata. rewrite Q. cbn [bind wp]. intros ans _. split; [exact W|].
    destruct ans as [[]|e].
    - apply K; [apply well_more; [exact W|exact I|apply quiet_stored]|now rewrite after_snoc].
    - cbn [wp]. split; [exact R|]. split; [now rewrite after_snoc|]. right. eexists h, _. split; [reflexivity|].
      split; [constructor|]. intros [_ X]. exact X.
  Qed.

  Lemma step_to t op t' r : reachable E t -> step E t op = (t', r) -> reachable E t'.
  Proof. intros R S. replace t' with (run E t [op]); [now apply reachable_run|]. unfold run. cbn [fold_left]. now rewrite S. Qed.

  Lemma known_none : known_hash None.
  Proof. intros x v Q. discriminate. Qed.
  Lemma known_preferred hs hash : hash_preference hs = Ok hash -> known_hash (Some hash).
  Proof.
    intros H x v Q. inversion Q; subst. apply hash_preference_iff in H as [[X _]|[X _]]; discriminate.
  Qed.
  Lemma wf_preference d : wf_desc d -> exists hash, hash_preference (md_hashes d) = Ok hash.
  Proof.
    intros (_ & _ & W). assert (X : exists a v, preferred (md_hashes d) a v).
    { inversion W; unfold preferred.
      - exists Sha256, a. right. repeat split; reflexivity.
      - exists Sha512, b. left. split; reflexivity.
      - exists Sha512, b. left. split; reflexivity. }
    destruct X as (a & v & X). apply hash_preference_iff in X. eauto.
  Qed.

  (** The end of a part in which the document was refused. *)
  Lemma refused_end {A} (P : tuf -> Prop) h r v max hash ans raw c t' er h' :
    well h' -> h' = h ++ EvFetchMeta Remote (role_name r) v max hash ans :: (match r with Root => [] | _ => [EvNow c] end) ->
    answered ans raw -> refused E (tuf_after t0 h) c raw r er -> reachable E t' ->
    @outcome A P (h' ++ [EvPut t']) (t', Err er).
  Proof.
    intros [W _] Q An Rf R. split; [exact R|]. split; [now rewrite after_snoc|].
    left. split.
    - apply Forall_app. split; [exact W|]. constructor; [apply quiet_put|constructor].
    - eapply document_refused; [reflexivity|]. exists h, r, v, max, hash, ans, raw, c. auto.
  Qed.

  Lemma wp_root_loop fuel : forall t u h, well h -> tuf_after t0 h = t -> reachable E t ->
    wp DE (root_loop E cfg fuel Remote true t u) (outcome (fun _ => True)) h.
  Proof.
    induction fuel as [|fuel IH]; intros t u h W T R; [exact I|]. cbn [root_loop]. destruct (_ <=? _)%N; [exact I|].
    eapply wp_seq; [exact (wp_ask Root _ _ _ h W known_none)|]. intros h1 x (ans & -> & X).
    destruct x as [raw|er].
    2:{ assert (O : er <> NotFound -> @outcome bool (fun _ => True)
                (h ++ [EvFetchMeta Remote (role_name Root) (VNumber (rm_version (t_root t) + 1)) (cf_max_root cfg) None ans]) (t, Err er)).
        { intros N. split; [exact R|]. split; [now rewrite after_snoc|]. right. eexists h, _. split; [reflexivity|].
          split; [exact X|]. intros [Y _]. contradiction. }
        destruct er; cbn [wp]; try (now apply O). split; [exact R|]. split; [now rewrite after_snoc|]. split; [|exact I].
        apply well_more; [exact W|exact I|]. intros e F. rewrite (fails_fun C _ _ _ X F).
        now split. }
    destruct X as [An W1]. destruct (update_root E t raw) as [t' r] eqn:U. cbn [wp]. intros _. split; [exact W1|].
    assert (R' : reachable E t').
    { destruct r as [[]|e]; [apply (step_to t (OpRoot raw) t' (Ok true))|apply (step_to t (OpRoot raw) t' (Err e))]; auto;
        cbn [step]; now rewrite U. }
    set (h1 := h ++ _) in *.
    assert (T2 : tuf_after t0 (h1 ++ [EvPut t']) = t') by now rewrite after_snoc.
    destruct r as [[]|e].
    - assert (W2 : well (h1 ++ [EvPut t'])).
      { apply well_put; [exact W1|]. intros er Rf. apply (refusal_inv h Root _ _ _ _ raw (mkClock 0 0 0 0 0 (fun _ => 0%Z))) in Rf as (c & _ & Rf); [|exact An].
        rewrite T in Rf. exact (root_accepted _ _ _ _ _ U Rf). }
      apply wp_keep; auto. intros h3 W3 T3. apply wp_keep; auto.
    - cbn [wp]. eapply (refused_end _ h Root _ _ _ ans raw (mkClock 0 0 0 0 0 (fun _ => 0%Z))); [exact W1|reflexivity|exact An| |exact R'].
      rewrite T. eapply root_refused; exact U.
  Qed.

  Lemma wp_root_part fuel t h : well h -> tuf_after t0 h = t -> reachable E t ->
    wp DE (update_root_with_repos E cfg fuel Remote true t) (outcome (fun _ => True)) h.
  Proof.
    intros W T R. unfold update_root_with_repos. eapply wp_seq; [now apply wp_root_loop|]. clear t h W T R.
    intros h [t [u|er]] (R & T & X); [|exact (conj R (conj T X))]. cbn [fst snd] in *. destruct X as [W _].
    cbn [wp]. intros c _. split; [exact W|].
    assert (W1 : well (h ++ [EvNow c])) by (apply well_more; [exact W|exact I|apply quiet_now]).
    destruct (expired _ _) eqn:X; cbn [wp].
    - split; [exact R|]. split; [now rewrite after_snoc|]. left. split; [exact (proj1 W1)|].
      apply (root_expired _ _ _ _ h c); auto. rewrite T. now apply expired_true in X.
    - split; [exact R|]. split; [now rewrite after_snoc|]. now split.
  Qed.

  Lemma wp_timestamp_part t h : well h -> tuf_after t0 h = t -> reachable E t ->
    wp DE (update_timestamp_with_repos E cfg Remote true t) (outcome (fun t' => t_timestamp t' <> None)) h.
  Proof.
    intros W T R. unfold update_timestamp_with_repos.
    eapply wp_seq; [exact (wp_ask Timestamp _ _ _ h W known_none)|]. intros h1 x (ans & -> & X).
    destruct x as [raw|er].
    2:{ cbn [wp]. split; [exact R|]. split; [now rewrite after_snoc|]. right. eexists h, _. split; [reflexivity|].
        split; [exact X|]. intros [_ Y]. discriminate. }
    destruct X as [An W1]. cbn [wp]. intros c _. split; [exact W1|].
    destruct (update_timestamp E t c raw) as [t' r] eqn:U. cbn [wp]. intros _.
    set (h1 := h ++ [_]) in *. assert (W2 : well (h1 ++ [EvNow c])) by (apply well_more; [exact W1|exact I|apply quiet_now]).
    assert (Q2 : h1 ++ [EvNow c] = h ++ [EvFetchMeta Remote (role_name Timestamp) VNone (cf_max_timestamp cfg) None ans; EvNow c])
      by (unfold h1; now rewrite <- app_assoc).
    assert (W3 : forall x, r = Ok x -> well ((h1 ++ [EvNow c]) ++ [EvPut t'])).
    { intros x ->. apply well_put; [exact W2|]. intros er Rf. rewrite Q2 in Rf.
      apply (refusal_inv h Timestamp _ _ _ _ raw c) in Rf as (c' & Qc & Rf); [|exact An]. rewrite (Qc ltac:(discriminate)), T in Rf.
      exact (timestamp_accepted _ _ _ _ _ _ U Rf). }
    split; [exact W2|].
    assert (R' : reachable E t').
    { destruct r as [[n|]|e];
        [apply (step_to t (OpTimestamp c raw) t' (Ok true))|apply (step_to t (OpTimestamp c raw) t' (Ok false))
        |apply (step_to t (OpTimestamp c raw) t' (Err e))]; auto; cbn [step]; now rewrite U. }
    destruct r as [[n|]|e].
    - apply update_timestamp_inv in U as (_ & _ & _ & _ & _ & U & _).
      apply wp_keep; [now apply (W3 (Some n))|now rewrite after_snoc|exact R'|].
      intros h3 W4 T3. cbn [wp]. split; [exact R'|]. split; [exact T3|]. split; [exact W4|]. cbn [fst]. congruence.
    - apply update_timestamp_inv in U as (_ & _ & _ & _ & -> & n & Tr & V). cbn [wp]. split; [exact R|]. split; [now rewrite after_snoc|].
      split; [now apply (W3 None)|]. cbn [fst]. intros Q. unfold timestamp_version in V. rewrite Q in V. cbn [ver] in V.
      apply verify_signatures_iff in Tr. apply (C62_verified_metadata_is_well_formed C o Timestamp) in Tr as ((P & _) & _). lia.
    - cbn [wp]. eapply (refused_end _ h Timestamp _ _ _ ans raw c); [exact W2|exact Q2|exact An| |exact R'].
      rewrite T. eapply timestamp_refused; exact U.
  Qed.

  Lemma wp_snapshot_part con t h : well h -> tuf_after t0 h = t -> reachable E t -> t_timestamp t <> None ->
    wp DE (update_snapshot_with_repos E Remote true con t) (outcome (fun t' => t_snapshot t' <> None)) h.
  Proof.
    intros W T R NT. unfold update_snapshot_with_repos. destruct (t_timestamp t) as [ts|] eqn:Et; [|contradiction].
    destruct (C62_trusted_metadata_is_well_formed C o t R) as (_ & Wt & _). destruct (Wt ts Et) as (_ & _ & Wd).
    destruct (_ <=? _)%N eqn:Le.
    { cbn [wp]. split; [exact R|]. split; [exact T|]. split; [exact W|]. cbn [fst]. intros Q. rewrite Q in Le.
      apply N.leb_le in Le. destruct Wd as ((P & _) & _). lia. }
    destruct (wf_preference _ Wd) as [hash Hp]. rewrite Hp.
    eapply wp_seq; [exact (wp_ask Snapshot _ _ _ h W (known_preferred _ _ Hp))|]. intros h1 x (ans & -> & X).
    destruct x as [raw|er].
    2:{ cbn [wp]. split; [exact R|]. split; [now rewrite after_snoc|]. right. eexists h, _. split; [reflexivity|].
        split; [exact X|]. intros [_ Y]. discriminate. }
    destruct X as [An W1]. cbn [wp]. intros c _. split; [exact W1|].
    destruct (update_snapshot E t c raw) as [t' r] eqn:U. cbn [wp]. intros _.
    set (h1 := h ++ [_]) in *. assert (W2 : well (h1 ++ [EvNow c])) by (apply well_more; [exact W1|exact I|apply quiet_now]).
    assert (Q2 : h1 ++ [EvNow c] = h ++ [EvFetchMeta Remote (role_name Snapshot) (if con then VNumber (md_version (tm_snapshot ts)) else VNone) (Some (md_length (tm_snapshot ts))) (Some hash) ans; EvNow c])
      by (unfold h1; now rewrite <- app_assoc).
    assert (W3 : r = Ok true -> well ((h1 ++ [EvNow c]) ++ [EvPut t'])).
    { intros ->. apply well_put; [exact W2|]. intros er Rf. rewrite Q2 in Rf.
      apply (refusal_inv h Snapshot _ _ _ _ raw c) in Rf as (c' & Qc & Rf); [|exact An]. rewrite (Qc ltac:(discriminate)), T in Rf.
      exact (snapshot_accepted _ _ _ _ _ U Rf). }
    split; [exact W2|].
    assert (R' : reachable E t') by (apply (step_to t (OpSnapshot c raw) t' r); auto).
    destruct r as [[|]|e].
    - apply update_snapshot_inv in U as (n & _ & _ & _ & U & _).
      apply wp_keep; [now apply W3|now rewrite after_snoc|exact R'|].
      intros h3 W4 T3. cbn [wp]. split; [exact R'|]. split; [exact T3|]. split; [exact W4|]. cbn [fst]. congruence.
    - exfalso. apply update_snapshot_inv in U as (-> & _ & ts' & Et' & _ & V). rewrite Et in Et'. injection Et' as <-.
      apply N.leb_gt in Le. unfold snapshot_version, ver in V. lia.
    - cbn [wp]. eapply (refused_end _ h Snapshot _ _ _ ans raw c); [exact W2|exact Q2|exact An| |exact R'].
      rewrite T. eapply snapshot_refused; [|exact U]. congruence.
  Qed.

  Lemma wp_targets_part con t h : well h -> tuf_after t0 h = t -> reachable E t -> t_snapshot t <> None ->
    wp DE (update_targets_with_repos E Remote true con t) (outcome (fun _ => True)) h.
  Proof.
    intros W T R NT. unfold update_targets_with_repos. destruct (t_snapshot t) as [s|] eqn:Es; [|contradiction].
    destruct (lookup _ _) as [desc|] eqn:Ld.
    2:{ cbn [wp]. split; [exact R|]. split; [exact T|]. left. split; [exact (proj1 W)|].
        apply (targets_not_listed _ _ _ _ s); [reflexivity|now rewrite T|exact Ld]. }
    destruct (C62_trusted_metadata_is_well_formed C o t R) as (_ & _ & Ws & _). destruct (Ws s Es) as (_ & _ & _ & Wd).
    rewrite Forall_forall in Wd. apply lookup_In in Ld as Id. apply Wd in Id as [_ Wd']. clear Wd. cbn [snd] in Wd'.
    destruct (_ <=? _)%N eqn:Le; [cbn [wp]; split; [exact R|]; split; [exact T|]; now split|].
    destruct (wf_preference _ Wd') as [hash Hp]. rewrite Hp.
    eapply wp_seq; [exact (wp_ask Targets _ _ _ h W (known_preferred _ _ Hp))|]. intros h1 x (ans & -> & X).
    destruct x as [raw|er].
    2:{ cbn [wp]. split; [exact R|]. split; [now rewrite after_snoc|]. right. eexists h, _. split; [reflexivity|].
        split; [exact X|]. intros [_ Y]. discriminate. }
    destruct X as [An W1]. cbn [wp]. intros c _. split; [exact W1|].
    destruct (update_targets E t c raw) as [t' r] eqn:U. cbn [wp]. intros _.
    set (h1 := h ++ [_]) in *. assert (W2 : well (h1 ++ [EvNow c])) by (apply well_more; [exact W1|exact I|apply quiet_now]).
    assert (Q2 : h1 ++ [EvNow c] = h ++ [EvFetchMeta Remote (role_name Targets) (if con then VNumber (md_version desc) else VNone) (Some (md_length desc)) (Some hash) ans; EvNow c])
      by (unfold h1; now rewrite <- app_assoc).
    assert (W3 : r = Ok true -> well ((h1 ++ [EvNow c]) ++ [EvPut t'])).
    { intros ->. apply well_put; [exact W2|]. intros er Rf. rewrite Q2 in Rf.
      apply (refusal_inv h Targets _ _ _ _ raw c) in Rf as (c' & Qc & Rf); [|exact An]. rewrite (Qc ltac:(discriminate)), T in Rf.
      exact (targets_accepted _ _ _ _ _ U Rf). }
    split; [exact W2|].
    assert (R' : reachable E t') by (apply (step_to t (OpTargets c raw) t' r); auto).
    destruct r as [[|]|e].
    - apply wp_keep; [now apply W3|now rewrite after_snoc|exact R'|].
      intros h3 W4 T3. cbn [wp]. split; [exact R'|]. split; [exact T3|]. now split.
    - exfalso. apply update_targets_inv in U as (-> & _ & s' & d' & Es' & _ & Ld' & V). rewrite Es in Es'. injection Es' as <-.
      change (from_role Targets) with "targets" in Ld. rewrite Ld in Ld'. injection Ld' as <-.
      apply N.leb_gt in Le. unfold targets_version, ver in V. lia.
    - cbn [wp]. eapply (refused_end _ h Targets _ _ _ ans raw c); [exact W2|exact Q2|exact An| |exact R'].
      rewrite T. eapply targets_refused; [|exact U]. congruence.
  Qed.

  Lemma wp_errors_update fuel t h : well h -> tuf_after t0 h = t -> reachable E t ->
    wp DE (update E cfg fuel t) (outcome (fun _ => True)) h.
  Proof.
    intros W T R. unfold update. eapply wp_seq; [now apply wp_root_part|]. clear t h W T R.
    intros h [t [u|e]] (R & T & X); [|exact (conj R (conj T X))]. cbn [fst snd] in *. destruct X as [W _].
    eapply wp_seq; [now apply wp_timestamp_part|]. clear t h W T R.
    intros h [t [u1|e]] (R & T & X); [|exact (conj R (conj T X))]. cbn [fst snd] in *. destruct X as [W N].
    eapply wp_seq; [now apply wp_snapshot_part|]. clear t h W T R N.
    intros h [t [u2|e]] (R & T & X); [|exact (conj R (conj T X))]. cbn [fst snd] in *. destruct X as [W N].
    eapply wp_seq; [now apply wp_targets_part|]. clear t h W T R N.
    intros h [t [u3|e]] (R & T & X); exact (conj R (conj T X)).
  Qed.
End Json.
