(** * Lemmas for C114 *)
From Coq Require Import String List NArith ZArith Bool Lia.
From Verif Require Import Base BaseFacts JsonValue JsonText Metadata Verify Paths SpecPaths PathProofs Tuf SpecVerify VerifyProofs SpecTuf TufProofs TufHistory Reader SpecReader ReaderProofs
     Repo Client SpecClient ClientLogic ClientProofs Serde Keys Shims SpecMeta Props_Tuf Props_Json SpecErrors ErrorsProofs SpecWhy.
Import ListNotations.
Open Scope string_scope.
Open Scope list_scope.

Definition DN : demands := mkDemands (fun _ _ => True) (fun _ _ => True) (fun _ => True) True.

Lemma wp_get {A} (p : prog A) tr a (Q : list event -> A -> Prop) : wp DN p Q [] -> exec p tr (Ret a) -> Q tr a.
Proof.
  intros W X. assert (R : along (rely DN) [] tr) by (intros pre e post _; exact I).
  destruct (wp_sound DN _ _ _ X _ [] W R) as [_ K]. exact K.
Qed.

Section Json.
  Context (C : crypto) (o : hash_order) (cfg : config).
  Let E : env := mkEnv C o (json_interchange C).

  (** ** Starting *)

  Lemma wp_new_fine fuel t h : wp DN (client_new E cfg fuel t) (fun _ r => is_ok r = true) h.
  Proof.
    assert (T : forall A (p : prog A) h, wp DN p (fun _ _ => True) h).
    { intros A. induction p; intros h'; cbn [wp]; try exact I; try (intros x _; split; [exact I|]; auto; fail).
      intros _. split; [exact I|]. auto. }
    unfold client_new. eapply wp_seq; [apply T|]. intros h1 [t1 [u|e]] _; [|reflexivity].
    eapply wp_seq; [apply T|]. intros h2 [t2 [u2|e]] _; [|reflexivity].
    eapply wp_seq; [apply T|]. intros h3 [t3 [u3|e]] _; [|reflexivity].
    eapply wp_seq; [apply T|]. intros h4 [t4 u4] _. reflexivity.
  Qed.

  Lemma json_faithful : faithful (e_ic E).
  Proof. apply C62_json_is_faithful. Qed.

  Lemma from_root_refused raw er : from_trusted_root E raw = Err er ->
    about_document er /\ forall root, ~ trusted_by E root Root raw root.
  Proof.
    intros F. split.
    - revert F. unfold from_trusted_root. cbn [E e_ic json_interchange ic_envelope ic_deserialize].
      destruct (json_from_slice d_signed raw) as [[s g]|e] eqn:En; cbn [rbind].
      2:{ apply from_slice_err in En as ->. intros H. inversion H. left. reflexivity. }
      unfold json_deserialize, decoded. destruct (d_metadata C Root g); cbn [rbind]; [|intros H; inversion H; left; reflexivity].
      destruct (verify_signatures _ _ _ _ _) eqn:V; cbn [rbind]; [discriminate|]. intros H. inversion H; subst. now apply verify_err in V.
    - intros root T. assert (K : from_trusted_root E raw = Ok (mkTuf root None None None [])).
      { apply (C06_initial_root_self_signed E raw _ json_faithful). eauto. }
      congruence.
  Qed.
  Lemma from_keys_refused raw th keys er : from_root_with_trusted_keys E raw th keys = Err er ->
    about_document er /\ forall root, ~ (trusted_by E root Root raw root /\ authentic E Root raw th keys root).
  Proof.
    intros F. split.
    - revert F. unfold from_root_with_trusted_keys.
      destruct (verify_signatures _ _ _ _ _) as [r|e] eqn:V; cbn [rbind]; [|intros H; inversion H; subst; now apply verify_err in V].
      match goal with |- context [verify_signatures ?a ?b ?x ?d ?k] => destruct (verify_signatures a b x d k) eqn:V2 end; cbn [rbind]; [discriminate|].
      intros H; inversion H; subst; now apply verify_err in V2.
    - intros root [T A]. assert (K : from_root_with_trusted_keys E raw th keys = Ok (mkTuf root None None None [])).
      { apply from_keys_iff. eauto. }
      congruence.
  Qed.

  Definition start_outcome (c : ctor) (h : list event) (r : result tuf) : Prop :=
    match r with Ok _ => True | Err er => not_started E cfg c h er end.
  Lemma wp_fine c fuel t h : wp DN (client_new E cfg fuel t) (start_outcome c) h.
  Proof. eapply wp_mono; [|apply wp_new_fine]. intros h' [t'|er] K; [exact I|discriminate]. Qed.

  Lemma wp_read s v h (K : known_hash None) max (Q : list event -> result bytes -> Prop) :
    (forall ans, match read_metadata C max None ans with
       | Ok raw => answered ans raw -> Q (h ++ [EvFetchMeta s "root" v max None ans]) (Ok raw)
       | Err er => fails_with C (EvFetchMeta s "root" v max None ans) er -> Q (h ++ [EvFetchMeta s "root" v max None ans]) (Err er)
       end) ->
    wp DN (fetch_metadata E s Root (from_role Root) v max None) Q h.
  Proof.
    intros H. unfold fetch_metadata. change (repo_check Root (from_role Root)) with (@Ok unit tt).
    change (from_role Root) with "root". cbn [wp]. intros ans _. split; [exact I|].
    change (e_crypto E) with C. specialize (H ans). pose proof (read_metadata_cases C s "root" v max None ans K) as X.
    destruct (read_metadata C max None ans); [apply H; exact (proj1 X)|apply H; exact X].
  Qed.

  Lemma wp_started fuel c : wp DN (construct E cfg fuel c) (start_outcome c) [].
  Proof.
    destruct c as [|raw|v th keys]; cbn [construct].
    - unfold with_trusted_local. eapply wp_seq; [apply (wp_read Local _ [] (known_none) _ (fun h x => exists ans,
        h = [EvFetchMeta Local "root" (VNumber 1) (cf_max_root cfg) None ans] /\
        match x with Ok raw => answered ans raw | Err er => fails_with C (EvFetchMeta Local "root" (VNumber 1) (cf_max_root cfg) None ans) er end));
        intros ans; destruct (read_metadata _ _ _ _); intros X; exists ans; auto|].
      intros h [raw|er] (ans & -> & X).
      + destruct (from_trusted_root E raw) as [t|er] eqn:F; cbn [wp].
        * intros _. split; [exact I|]. apply wp_fine.
        * apply from_root_refused in F as [A N]. eapply root_refused; [constructor; exact X|exact A|]. intros root [T _]. now apply (N root).
      + cbn [wp]. now constructor.
    - unfold with_trusted_root. destruct (from_trusted_root E raw) as [t|er] eqn:F; cbn [wp].
      + intros _. split; [exact I|]. apply wp_fine.
      + apply from_root_refused in F as [A N]. eapply root_refused; [constructor|exact A|]. intros root [T _]. now apply (N root).
    - unfold with_trusted_root_keys.
      set (e s ans := EvFetchMeta s "root" v (cf_max_root cfg) None ans).
      eapply (wp_seq DN _ _ (fun h x => match x with
         | Ok (b, raw) => root_read C cfg (FromKeys v th keys) h b raw
         | Err er => not_started E cfg (FromKeys v th keys) h er end)).
      + unfold fetch_metadata_from_local_or_else_remote.
        eapply wp_seq; [apply (wp_read Local _ [] (known_none) _ (fun h x => exists ans,
          h = [e Local ans] /\ match x with Ok raw => answered ans raw | Err er => fails_with C (e Local ans) er end));
          intros ans; destruct (read_metadata _ _ _ _); intros X; exists ans; auto|].
        intros h [raw|er] (ans & -> & X); [cbn [wp]; now constructor|].
        assert (G : er <> NotFound -> not_started E cfg (FromKeys v th keys) [e Local ans] er) by (intros N; now constructor).
        destruct er; try (cbn [wp]; apply G; discriminate).
        eapply wp_seq; [apply (wp_read Remote _ [e Local ans] (known_none) _ (fun h x => exists ans1,
          h = [e Local ans; e Remote ans1] /\ match x with Ok raw => answered ans1 raw | Err er => fails_with C (e Remote ans1) er end));
          intros ans1; destruct (read_metadata _ _ _ _); intros Y; exists ans1; auto|].
        intros h [raw|er] (ans1 & -> & Y); cbn [wp]; now constructor.
      + intros h [[b raw]|er] X; [|exact X].
        destruct (from_root_with_trusted_keys E raw th keys) as [t|er] eqn:F; cbn [wp].
        2:{ apply from_keys_refused in F as [A N]. eapply root_refused; [exact X|exact A|]. intros root T. now apply (N root). }
        intros _. split; [exact I|]. destruct b; [|apply wp_fine].
        unfold store_metadata. change (repo_check Root (from_role Root)) with (@Ok unit tt). change (from_role Root) with "root".
        cbn [bind wp]. intros [[]|er] _; (split; [exact I|]); [apply wp_fine|]. cbn [wp].
        apply from_keys_iff in F as (root & A & T & ->). rewrite <- app_assoc. cbn [app t_root]. eapply root_not_stored; [exact X|]. now split.
  Qed.

  (** ** Descriptions *)

  Lemma delegation_refused t c parent r raw t' er s g : t_snapshot t = Some s -> t_targets t = Some g ->
    update_delegation E t c parent r raw = (t', Err er) -> refused_delegation E t c parent r raw er.
  Proof.
    intros Hs Hg U. apply update_delegation_inv in U as K. destruct K as [_ K]. revert U. unfold update_delegation.
    unfold trusted_root_unexpired at 1. destruct (expired (rm_expires (t_root t)) (at_root c)) eqn:X1; cbn [rbind].
    { intros H. injection H as _ <-. apply expired_true in X1. now constructor. }
    unfold trusted_snapshot_unexpired at 1. rewrite Hs. destruct (expired (sm_expires s) (at_snapshot c)) eqn:X2; cbn [rbind].
    { intros H. injection H as _ <-. apply expired_true in X2. now apply (snapshot_too_old _ _ _ _ _ _ s). }
    unfold trusted_targets_unexpired at 1. rewrite Hg. destruct (expired (tg_expires g) (at_targets c)) eqn:X3; cbn [rbind].
    { intros H. injection H as _ <-. apply expired_true in X3. now apply (targets_too_old _ _ _ _ _ _ g). }
    assert (V : forall e, about_document e -> (t, Err e) = (t', @Err bool er) -> refused_delegation E t c parent r raw er).
    { intros e A H. injection H as _ <-. now constructor. }
    destruct (tg_delegations g) as [gds|] eqn:Hgd; [|apply V; apply vf].
    destruct (lookup r (sm_meta s)) as [desc|] eqn:Ld; [|apply V; apply vf].
    destruct (_ <? _)%N; [apply V; apply vf|].
    destruct (find_delegation_threshold_and_keys t parent r) as [[th ks]|] eqn:Hf; [|apply V; apply vf].
    destruct (verify_signatures E Targets raw th ks) as [new|e] eqn:Vf; cbn [rbind].
    2:{ apply V. now apply verify_err in Vf. }
    destruct (_ =? _)%N; [discriminate|]. destruct (negb _); [apply V; apply vf|].
    destruct (expired (tg_expires new) (at_new c)) eqn:X4; [|discriminate]. intros H. injection H as _ <-.
    apply expired_true in X4. apply (delegated_too_old _ _ _ _ _ _ new desc); [|exact X4].
    assert (exists p, trusted_parent t parent p /\ delegated_by E p r raw new) as (p & Hp & Hdp).
    { apply find_threshold_iff. exists th, ks. split; [exact Hf|exact Vf]. }
    apply expired_false in X1, X2, X3. split; [exact X1|]. exists s, g, p. assert (tg_delegations g <> None) by congruence. auto 12.
  Qed.

  Context (t0 : tuf) (s : snapshot_metadata) (g : targets_metadata) (virt : string).

  Definition at_work (h : list event) (t : tuf) : Prop :=
    reachable E t /\ tuf_after t0 h = t /\ t_snapshot t = Some s /\ t_targets t = Some g.
  Definition stood (h : list event) (parent : string) (m : targets_metadata) : Prop :=
    exists pre post, h = pre ++ post /\
      (parent = "targets" /\ t_targets (tuf_after t0 pre) = Some m \/ lookup parent (t_delegations (tuf_after t0 pre)) = Some m).
  Lemma stood_more h h' parent m : stood h parent m -> stood (h ++ h') parent m.
  Proof. intros (pre & post & -> & K). exists pre, (post ++ h'). split; [now rewrite app_assoc|exact K]. Qed.

  Definition failing (h : list event) (er : error) : Prop :=
    exists parent d p, stands t0 h parent d /\ dg_terminating d = true /\ In p (dg_paths d) /\ child_of virt p /\
      delegation_fails E t0 s parent d h er.
  Definition searched (h0 h : list event) (x : tuf * (bool * result target_desc)) : Prop :=
    (exists h', h = h0 ++ h') /\ at_work h (fst x) /\
    match snd (snd x) with Ok _ => True | Err er => er = NotFound \/ failing h er end.
  Definition failed_search (h0 h : list event) (x : tuf * (bool * result target_desc)) : Prop :=
    searched h0 h x /\ is_ok (snd (snd x)) = false.

  Lemma at_work_more h t e : at_work h t -> no_put e -> at_work (h ++ [e]) t.
  Proof. intros (R & T & K) N. split; [exact R|]. split; [|exact K]. rewrite after_snoc. destruct e; auto. contradiction. Qed.

  Lemma wp_walk recur dt depth role m ds :
    tg_delegations m = Some ds ->
    (forall t h dt dep m' role', at_work h t -> stood h role' m' -> wp DN (recur t dt dep (Some (m', role'))) (searched h) h) ->
    forall roles t h, (forall d, In d roles -> In d (dgs_roles ds)) -> at_work h t -> stood h role m ->
    wp DN (walk_loop E recur dt depth virt s role roles t) (failed_search h) h.
  Proof.
    intros Dm Rec. induction roles as [|d rest IH]; intros t h Sub A St; cbn [walk_loop].
    { cbn [wp]. split; [|reflexivity]. split; [exists []; now rewrite app_nil_r|]. split; [exact A|]. now left. }
    assert (Go : forall h' t', (exists x, h' = h ++ x) -> at_work h' t' ->
       wp DN (walk_loop E recur dt depth virt s role rest t') (failed_search h) h').
    { intros h' t' (x & ->) A'. eapply wp_mono; [|apply IH; [intros; apply Sub; now right|exact A'|now apply stood_more]].
      intros h2 y ((( z & ->) & K) & K2). split; [|exact K2]. split; [|exact K]. exists (x ++ z). now rewrite app_assoc. }
    assert (Nf : forall b h' t', (exists x, h' = h ++ x) -> at_work h' t' -> failed_search h h' (t', (b, Err NotFound))).
    { intros b h' t' P A'. split; [|reflexivity]. split; [exact P|]. split; [exact A'|]. now left. }
    assert (H0 : exists x, h = h ++ x) by (exists []; now rewrite app_nil_r).
    destruct (existsb _ _) eqn:Ex; cbn [negb].
    2:{ destruct (dg_terminating d); [now apply Nf|now apply Go]. }
    destruct (lookup (dg_role d) (sm_meta s)) as [desc|] eqn:Ld.
    2:{ destruct (dg_terminating d); [now apply Nf|now apply Go]. }
    assert (Wd : wf_desc desc).
    { destruct A as (R & _ & Hs & _). destruct (C62_trusted_metadata_is_well_formed C o t R) as (_ & _ & Ws & _).
      destruct (Ws s Hs) as (_ & _ & _ & Wf). rewrite Forall_forall in Wf. apply lookup_In in Ld. now apply Wf in Ld as [_ Ld]. }
    destruct (wf_preference _ Wd) as [[a x] Hp]. rewrite Hp. pose proof (known_preferred _ _ Hp) as Kh.
    apply hash_preference_iff in Hp as Pf. apply existsb_exists in Ex as (p & Ip & Ch). apply is_child_iff in Ch.
    assert (Bad : forall h' t' er, (exists x, h' = h ++ x) -> at_work h' t' -> dg_terminating d = true ->
       delegation_fails E t0 s role d h' er -> failed_search h h' (t', (true, Err er))).
    { intros h' t' er (y & ->) A' Te F. split; [|reflexivity]. split; [eauto|]. split; [exact A'|]. right.
      exists role, d, p. split; [|split; [exact Te|split; [exact Ip|split; [exact Ch|exact F]]]].
      destruct (stood_more _ y _ _ St) as (pre & post & Q & K).
      exists pre, post, m, ds. split; [exact Q|]. split; [exact K|]. split; [exact Dm|]. apply Sub. now left. }
    unfold fetch_metadata at 1 2. destruct (repo_check Targets (dg_role d)) as [[]|e] eqn:Rc.
    2:{ assert (Q : e = IllegalArgument /\ (dg_role d = "root" \/ dg_role d = "snapshot")).
        { revert Rc. unfold repo_check, fuzzy_matches_path. destruct (String.eqb (dg_role d) "targets") eqn:Q1; cbn [orb negb]; [discriminate|].
          destruct (mem (dg_role d) _) eqn:Q2; cbn [negb]; [|discriminate]. intros H. inversion H. split; [reflexivity|].
          apply mem_In in Q2. apply String.eqb_neq in Q1. destruct Q2 as [Q2|[Q2|[Q2|[]]]]; auto. now elim Q1. }
        destruct Q as [-> Nm]. cbn [bind]. destruct (dg_terminating d) eqn:Te; [|now apply Go]. cbn [wp].
        apply Bad; auto. now apply reserved_name. }
    cbn [bind wp]. intros ans0 _. split; [exact I|]. change (e_crypto E) with C.
    pose proof (read_metadata_cases C Local (dg_role d) VNone (Some (md_length desc)) (Some (a, x)) ans0 Kh) as X0.
    set (e0 := EvFetchMeta Local (dg_role d) VNone (Some (md_length desc)) (Some (a, x)) ans0) in *.
    assert (A0 : at_work (h ++ [e0]) t) by (apply at_work_more; [exact A|exact I]).
    (* what happens to a document that has been read *)
    assert (Take : forall raw h1 sd v max hash ans, (exists y, h1 = h ++ y) -> at_work h1 t -> answered ans raw ->
      wp DN (Now (fun c => let (t', r) := update_delegation E t c role (dg_role d) raw in
                        Put t'
                          match r with
                          | Err e => if dg_terminating d then Ret (t', (true, Err e)) else walk_loop E recur dt depth virt s role rest t'
                          | Ok _ =>
                              do _ <- store_metadata Targets (dg_role d) VNone raw in
                              match lookup (dg_role d) (t_delegations t') with
                              | None => Panic
                              | Some meta =>
                                  if (u32_max <=? depth)%N then Panic else
                                  do (t'', (term, res)) <-
                                     recur t' (dg_terminating d) (depth + 1)%N (Some (meta, dg_role d)) in
                                  if term && negb (is_ok res) then Ret (t'', (true, res))
                                  else walk_loop E recur dt depth virt s role rest t''
                              end
                          end)) (failed_search h) (h1 ++ [EvFetchMeta sd (dg_role d) v max hash ans])).
    { intros raw h1 sd v max hash ans (y & ->) A1 An. set (ask := EvFetchMeta sd (dg_role d) v max hash ans).
      cbn [wp]. intros c _. split; [exact I|]. destruct (update_delegation E t c role (dg_role d) raw) as [t' r] eqn:U. cbn [wp].
      intros _. split; [exact I|].
      assert (R' : reachable E t').
      { destruct A as (R & _). eapply (step_to C o t (OpDelegation c role (dg_role d) raw) t' r); [exact R|]. cbn [step]. exact U. }
      assert (Fr : t_snapshot t' = Some s /\ t_targets t' = Some g).
      { destruct A as (_ & _ & S1 & S2). apply update_delegation_inv in U as K. destruct r as [[|]|].
        - destruct K as (n & _ & ->). now split.
        - destruct K as (-> & _). now split.
        - destruct K as (-> & _). now split. }
      set (h2 := _ ++ [EvPut t']).
      assert (A2 : at_work h2 t') by (split; [exact R'|]; split; [unfold h2; now rewrite after_snoc|exact Fr]).
      assert (P2 : exists z, h2 = h ++ z) by (unfold h2; rewrite <- !app_assoc; eauto).
      destruct r as [b|er].
      - unfold store_metadata. rewrite Rc. cbn [bind wp]. intros ansS _. split; [exact I|].
        set (h3 := h2 ++ _). assert (A3 : at_work h3 t') by (apply at_work_more; [exact A2|exact I]).
        assert (P3 : exists z, h3 = h ++ z) by (destruct P2 as (z & Q); unfold h3; rewrite Q, <- app_assoc; eauto).
        destruct (lookup (dg_role d) (t_delegations t')) as [meta|] eqn:Lm; [|exact I]. destruct (_ <=? _)%N; [exact I|].
        eapply wp_seq; [apply Rec; [exact A3|]|].
        + exists h3, []. split; [now rewrite app_nil_r|]. right. destruct A3 as (_ & -> & _). exact Lm.
        + intros h4 [t4 [term res]] ((z & Q4) & A4 & K4). cbn [fst snd] in A4, K4.
          assert (P4 : exists z, h4 = h ++ z) by (destruct P3 as (z3 & Q); rewrite Q4, Q, <- app_assoc; eauto).
          destruct (term && negb (is_ok res)) eqn:B; [|now apply Go]. cbn [wp]. apply andb_true_iff in B as [_ B].
          destruct res as [dd|er]; [discriminate|]. split; [|reflexivity]. split; [exact P4|]. split; [exact A4|exact K4].
      - destruct (dg_terminating d) eqn:Te; [|now apply Go]. cbn [wp]. apply Bad; auto.
        assert (Q : h2 = (h ++ y) ++ [ask; EvNow c; EvPut t']) by (unfold h2; rewrite <- !app_assoc; reflexivity).
        rewrite Q. eapply not_accepted; [reflexivity|exact An|]. destruct A1 as (_ & -> & S1 & S2). eapply delegation_refused; eauto. }
    destruct (read_metadata C (Some (md_length desc)) (Some (a, x)) ans0) as [raw|er0].
    - cbn [bind]. apply Take; [exact H0|exact A|exact (proj1 X0)].
    - cbn [bind wp]. intros ans _. split; [exact I|].
      set (v := if rm_consistent (t_root t) then VNumber (md_version desc) else VNone).
      pose proof (read_metadata_cases C Remote (dg_role d) v (Some (md_length desc)) (Some (a, x)) ans Kh) as X.
      destruct (read_metadata C (Some (md_length desc)) (Some (a, x)) ans) as [raw|er].
      + cbn [bind]. apply Take; [eauto|exact A0|exact (proj1 X)].
      + cbn [bind]. assert (A1 : at_work ((h ++ [e0]) ++ [EvFetchMeta Remote (dg_role d) v (Some (md_length desc)) (Some (a, x)) ans]) t)
          by (apply at_work_more; [exact A0|exact I]).
        assert (P1 : exists z, (h ++ [e0]) ++ [EvFetchMeta Remote (dg_role d) v (Some (md_length desc)) (Some (a, x)) ans] = h ++ z)
          by (rewrite <- app_assoc; eauto).
        destruct (dg_terminating d) eqn:Te; [|now apply Go]. cbn [wp]. apply Bad; auto.
        rewrite <- app_assoc. cbn [app]. eapply not_obtained; eauto.
  Qed.

  Lemma wp_find fuel : forall t dt depth m role h, at_work h t -> stood h role m ->
    wp DN (lookup_target_description E cfg fuel t dt depth virt s (Some (m, role)))
      (fun h' x => searched h h' x /\ match snd (snd x) with
                                      | Ok d => h' = h /\ fst x = t /\ lookup virt (tg_targets m) = Some d
                                      | Err _ => (depth <= cf_max_depth cfg)%N -> lookup virt (tg_targets m) = None end) h.
  Proof.
    induction fuel as [|fuel IH]; intros t dt depth m role h A St; cbn [lookup_target_description]; [exact I|].
    assert (H0 : exists x, h = h ++ x) by (exists []; now rewrite app_nil_r).
    destruct (_ <? _)%N eqn:Dp.
    { cbn [wp snd fst]. split; [split; [exact H0|]; split; [exact A|]; now left|]. intros Le. apply N.ltb_lt in Dp. lia. }
    destruct (lookup virt (tg_targets m)) as [d|] eqn:L.
    { cbn [wp snd fst]. split; [split; [exact H0|]; split; [exact A|exact I]|]. now repeat split. }
    destruct (tg_delegations m) as [ds|] eqn:Dm.
    2:{ cbn [wp snd fst]. split; [split; [exact H0|]; split; [exact A|]; now left|]. auto. }
    eapply wp_mono; [|eapply (wp_walk _ dt depth role m ds Dm)].
    - intros h' [t' [term [d|er]]] [K B]; [discriminate B|]. split; [exact K|]. cbn [snd]. auto.
    - intros t' h' dt' dep' m' role' A' St'. eapply wp_mono; [|now apply IH]. intros h2 x [K _]. exact K.
    - auto.
    - exact A.
    - exact St.
  Qed.
End Json.

Section Target.
  Context (C : crypto) (o : hash_order) (cfg : config).
  Let E : env := mkEnv C o (json_interchange C).

  Lemma wp_described fuel t target : reachable E t ->
    wp DN (fetch_target_description E cfg fuel t target)
      (fun h x => match snd x with
                  | Ok d => h = [] /\ fst x = t /\ described cfg t target d
                  | Err er => not_described E cfg t target h er end) [].
  Proof.
    intros R. unfold fetch_target_description. destruct (cf_translate cfg target) as [virt|er] eqn:Tr; [|cbn [wp snd]; now constructor].
    destruct (t_snapshot t) as [s|] eqn:Es; [|cbn [wp snd]; now constructor].
    destruct (t_targets t) as [g|] eqn:Eg.
    - assert (Q : forall f, lookup_target_description E cfg f t false 0 virt s None = lookup_target_description E cfg f t false 0 virt s (Some (g, "targets"))).
      { intros [|f]; cbn [lookup_target_description]; [reflexivity|]. now rewrite Eg. }
      rewrite Q. eapply wp_seq; [apply (wp_find C o cfg t s g virt fuel t false 0 g "targets" [])|].
      + now repeat split.
      + exists [], []. split; [reflexivity|]. left. now split.
      + intros h [t' [term [d|er]]] [K B]; cbn [wp snd fst] in *.
        * destruct B as (-> & -> & L). split; [reflexivity|]. split; [reflexivity|]. exists virt, g. auto.
        * destruct K as (_ & _ & [->|K]).
          -- apply (not_listed E cfg t target h virt g); auto. apply B. lia.
          -- destruct K as (parent & d & p & S1 & S2 & S3 & S4 & S5). eapply delegation_failed; eauto.
    - destruct fuel as [|fuel]; [exact I|]. cbn [lookup_target_description]. assert (Z : (cf_max_depth cfg <? 0)%N = false) by (apply N.ltb_ge; lia).
      rewrite Z, Eg. cbn [bind wp snd]. now constructor.
  Qed.

  Lemma described_wf t target d : reachable E t -> described cfg t target d -> wf_target d.
  Proof.
    intros R (virt & g & _ & Eg & L). destruct (C62_trusted_metadata_is_well_formed C o t R) as (_ & _ & _ & Wg & _).
    destruct (Wg g Eg) as (_ & _ & _ & W & _). rewrite Forall_forall in W. apply lookup_In in L. now apply W in L as [_ L].
  Qed.
  Lemma wf_target_preference d : wf_target d -> exists hash, hash_preference (td_hashes d) = Ok hash.
  Proof.
    intros (_ & W & _). assert (X : exists a v, preferred (td_hashes d) a v).
    { inversion W; unfold preferred.
      - exists Sha256, a. right. repeat split; reflexivity.
      - exists Sha512, b. left. split; reflexivity.
      - exists Sha512, b. left. split; reflexivity. }
    destruct X as (a & v & X). apply hash_preference_iff in X. eauto.
  Qed.

  (** What is handed on. *)
  Definition sent (t : tuf) (target : string) (h : list event) (rs' : stream) : Prop :=
    exists d path rs hash, described cfg t target d /\ hash_preference (td_hashes d) = Ok hash /\
      h = [EvFetchTarget path d (Ok rs)] /\ checked_target C (td_length d) hash (Ok rs) = Ok rs'.

  Lemma prefix_err target x er : acceptable_path target -> with_hash_prefix target x = Err er ->
    er = IllegalArgument /\ x = "" /\ exists dir, target = (dir ++ "/")%string.
  Proof.
    intros A P. destruct (exists_last (split_nonempty target)) as (dir & file & Sp).
    assert (N : x = "" /\ file = "").
    { destruct (String.eqb_spec x "") as [Qx|Nx].
      - split; [exact Qx|]. destruct (String.eqb_spec file "") as [Qf|Nf]; [exact Qf|]. rewrite (with_hash_prefix_ok target x dir file) in P; auto. discriminate.
      - rewrite (with_hash_prefix_ok target x dir file) in P; auto. discriminate. }
    destruct N as [-> ->]. split; [|split; [reflexivity|]].
    - revert P. unfold with_hash_prefix, path_new, safe_path.
      repeat (match goal with |- context [if ?c then _ else _] => destruct c end; cbn [rbind]; [intros H; now inversion H|]). discriminate.
    - pose proof (join_split target) as J. rewrite Sp in J. destruct dir as [|d dir].
      + cbn in J. destruct A as (A & _). now elim A.
      + exists (join_slash (d :: dir)). rewrite <- J, join_app; [|discriminate|discriminate]. reflexivity.
  Qed.

  Lemma wp_sent fuel t target k : reachable E t -> acceptable_path target ->
    wp DN (fetch_target_reader E cfg fuel t target)
      (fun h x => match snd x with
                  | Ok rs => sent t target h rs
                  | Err er => not_fetched E cfg t target k h er end) [].
  Proof.
    intros R A. unfold fetch_target_reader. eapply wp_seq; [now apply wp_described|].
    intros h [t' [d|er]] K; cbn [snd fst] in K; [|cbn [wp snd]; now constructor]. destruct K as (-> & -> & D).
    destruct (wf_target_preference d (described_wf _ _ _ R D)) as [[a x] Hp].
    assert (G : forall path, wp DN (do res <- fetch_target_stream E path d in Ret (t, res))
      (fun h x => match snd x with Ok rs => sent t target h rs | Err er => not_fetched E cfg t target k h er end) []).
    { intros path. unfold fetch_target_stream. rewrite Hp. cbn [bind wp]. intros ans _. split; [exact I|]. cbn [app snd].
      change (e_crypto E) with C. destruct ans as [rs|er].
      - destruct (checked_target C (td_length d) (a, x) (Ok rs)) as [rs'|er] eqn:Ck.
        + exists d, path, rs, (a, x). auto.
        + exfalso. revert Ck. unfold checked_target, safe_new. cbn [rbind].
          pose proof (known_preferred _ _ Hp) as Kh. destruct a; [discriminate|discriminate|]. now elim (Kh s x).
      - unfold checked_target. cbn [rbind]. now constructor. }
    destruct (rm_consistent (t_root t)) eqn:Co; [|apply G]. rewrite Hp. cbn [rbind].
    destruct (with_hash_prefix target x) as [path|er] eqn:P; [apply G|]. cbn [wp snd].
    apply (prefix_err target x er A) in P as (-> & -> & dir & Q). apply hash_preference_iff in Hp. eapply no_name; eauto.
  Qed.

  Lemma wp_stored fuel t target : reachable E t -> acceptable_path target ->
    wp DN (fetch_target E cfg fuel t target)
      (fun h x => match snd x with Ok _ => had E cfg t target (CallTarget target) h | Err er => not_fetched E cfg t target (CallTarget target) h er end) [].
  Proof.
    intros R A. unfold fetch_target. eapply wp_seq; [now apply (wp_sent fuel t target (CallTarget target))|].
    intros h [t' [rs|er]] K; cbn [snd] in K; [|exact K]. cbn [wp]. intros ans _. split; [exact I|].
    destruct K as (d & path & rs0 & hash & D & _ & -> & _). destruct ans as [[]|er]; cbn [wp snd app]; now constructor.
  Qed.

  Lemma wp_copied rs : forall h,
    wp DN (copy_to_writer rs)
      (fun h' r => exists ws, h' = h ++ ws /\
         match r with
         | Ok _ => Forall written_well ws /\ exists b, contains rs b None
         | Err er => (Forall written_well ws /\ exists b k, contains rs b (Some k) /\ er = of_io k) \/
                     (exists ws' b k, ws = ws' ++ [EvWrite b (Some k)] /\ Forall written_well ws' /\ er = of_io k)
         end) h.
  Proof.
    induction rs as [|[|k|data] rs IH]; intros h; cbn [copy_to_writer].
    - cbn [wp]. exists []. split; [now rewrite app_nil_r|]. split; [constructor|]. exists "". constructor.
    - eapply wp_mono; [|apply IH]. intros h' [u|er] (ws & Q & K); exists ws; split; auto.
      + destruct K as (W & b & B). split; [exact W|]. exists b. now constructor.
      + destruct K as [(W & b & k & B & X)|K]; [left|now right]. split; [exact W|]. exists b, k. split; [now constructor|exact X].
    - cbn [wp]. exists []. split; [now rewrite app_nil_r|]. left. split; [constructor|]. exists "", k. split; [constructor|reflexivity].
    - destruct (N.eqb_spec (byte_length data) 0) as [Z|Z].
      + cbn [wp]. exists []. split; [now rewrite app_nil_r|]. split; [constructor|]. exists "".
        destruct data; [constructor|]. unfold byte_length in Z. cbn in Z. lia.
      + cbn [wp]. intros [k|] _; (split; [exact I|]).
        * cbn [wp]. eexists. split; [reflexivity|]. right. exists [], data, k. repeat split. constructor.
        * eapply wp_mono; [|apply IH]. intros h' [u|er] (ws & -> & K); (exists (EvWrite data None :: ws); split; [now rewrite <- app_assoc|]).
          -- assert (W0 : written_well (EvWrite data None)) by (now exists data). destruct K as (W & b & B).
             split; [now constructor|]. exists (data ++ b)%string. constructor; [|exact B]. intros ->. now apply Z.
          -- assert (W0 : written_well (EvWrite data None)) by (now exists data).
             destruct K as [(W & b & k & B & X)|(ws' & b & k & -> & W & X)].
             ++ left. split; [now constructor|]. exists (data ++ b)%string, k. split; [|exact X]. constructor; [|exact B].
                intros ->. now apply Z.
             ++ right. exists (EvWrite data None :: ws'), b, k. repeat split; auto.
  Qed.

  Lemma wp_written fuel t target : reachable E t -> acceptable_path target ->
    wp DN (fetch_target_to_writer E cfg fuel t target)
      (fun h x => match snd x with Ok _ => had E cfg t target (CallTargetToWriter target) h | Err er => not_fetched E cfg t target (CallTargetToWriter target) h er end) [].
  Proof.
    intros R A. unfold fetch_target_to_writer. eapply wp_seq; [now apply (wp_sent fuel t target (CallTargetToWriter target))|].
    intros h [t' [rs|er]] K; cbn [snd] in K; [|exact K]. eapply wp_seq; [apply wp_copied|].
    intros h' r (ws & -> & B). cbn [wp snd].
    destruct K as (d & path & rs0 & hash & D & Hp & -> & Ck). cbn [app].
    pose proof (read_metadata_cases C Remote "" VNone (Some (td_length d)) (Some hash) (Ok rs0) (known_preferred _ _ Hp)) as X.
    assert (Sz : limit (Some (td_length d)) = td_length d).
    { destruct (described_wf _ _ _ R D) as (Sz & _). unfold limit, size_ok, u64_max in *. lia. }
    assert (Rd : match read_plain rs "" with
                 | inl b => read_metadata C (Some (td_length d)) (Some hash) (Ok rs0) = Ok b
                 | inr k => read_metadata C (Some (td_length d)) (Some hash) (Ok rs0) = Err (of_io k) end).
    { revert Ck. unfold checked_target, read_metadata. cbn [rbind option_get]. destruct (safe_new (td_length d) (Some hash)) as [sr|]; [|discriminate].
      cbn [rbind]. intros Q. injection Q as <-. apply read_checked. }
    destruct hash as [a x]. apply hash_preference_iff in Hp.
    destruct r as [u|er].
    - destruct B as (W & b & B). apply read_plain_iff in B. rewrite B in Rd. rewrite Rd in X. destruct X as [_ X].
      apply had_written; [exact D|exact W|]. change (e_crypto E) with C. intros er Br. inversion Br as [b' k Ct L|b' o' Ct L|b' a' x' Ct L Pf Hk]; subst.
      + eapply X, broke_off; [exact Ct|]. now rewrite Sz.
      + eapply X, too_long; [exact Ct|]. now rewrite Sz.
      + assert (Q : a' = a /\ x' = x) by (apply hash_preference_iff in Pf, Hp; rewrite Hp in Pf; injection Pf; auto). destruct Q as [-> ->].
        eapply X, other_hash; [exact Ct| |exact Hk]. now rewrite Sz.
    - destruct B as [(W & b & k & B & ->)|(ws' & b & k & -> & W & ->)]; [|now constructor].
      apply broken_off; [exact D|exact W|]. change (e_crypto E) with C.
      assert (F : fails_with C (EvFetchMeta Remote "" VNone (Some (td_length d)) (Some (a, x)) (Ok rs0)) (of_io k)).
      { destruct (read_plain rs "") as [b'|k'] eqn:P.
        - apply read_plain_iff in P. destruct (contains_fun _ _ _ P _ _ B) as [_ Z]. discriminate.
        - rewrite Rd in X. pose proof (read_plain_contains rs "") as Z. rewrite P in Z. destruct Z as (b' & Z).
          destruct (contains_fun _ _ _ Z _ _ B) as [_ Z']. injection Z' as ->. exact X. }
      inversion F; subst; rewrite Sz in *; [eapply interrupted|eapply more_than_described|eapply not_as_described]; eauto.
  Qed.
End Target.
