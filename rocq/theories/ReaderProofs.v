(** * Proofs about checked reads *)
From Coq Require Import String List NArith Bool Lia.
From Verif Require Import Base BaseFacts Metadata Reader SpecReader StringFacts.
Import ListNotations.
Open Scope string_scope.
Open Scope N_scope.

Lemma byte_length_zero d : (byte_length d =? 0) = true <-> d = "".
Proof.
  unfold byte_length. rewrite N.eqb_eq. destruct d; cbn; split; intros H; try reflexivity; try discriminate; lia.
Qed.
Lemma byte_length_nonzero d : (byte_length d =? 0) = false <-> d <> "".
Proof. rewrite <- not_true_iff_false, byte_length_zero. tauto. Qed.

Lemma byte_length_app a b : byte_length (a ++ b) = byte_length a + byte_length b.
Proof. unfold byte_length. induction a as [|c a IH]; cbn [append String.length]; lia. Qed.

Lemma delivered_app a b : delivered (a ++ b)%list = delivered a ++ delivered b.
Proof. induction a as [|[| |d] a IH]; cbn; auto. now rewrite IH, sapp_assoc. Qed.

Section Safe.
  Variable C : crypto.

  Fixpoint safe_run (s : safe_reader) (rs : list reply) : list reply :=
    match rs with
    | [] => []
    | r :: rest => let (r', s') := safe_poll C s r in r' :: safe_run s' rest
    end.

  Lemma polls_checked src s sizes :
    polls (checked C src s) sizes = safe_run s (polls src sizes).
  Proof.
    unfold polls. cbn [checked src_init src_poll src_state]. generalize (src_init src). revert s.
    induction sizes as [|n sizes IH]; intros s i; cbn; auto.
    destruct (src_poll src i n) as [r i']. cbn. destruct (safe_poll C s r) as [r' s']. cbn.
    f_equal. apply IH.
  Qed.

  (** The state of a reader that has handed out [out] and met no end yet. *)
  Definition tracks (max : N) (hash : option (hash_alg * bytes)) (out : bytes) (s : safe_reader) : Prop :=
    sr_max s = max /\ sr_read s = byte_length out /\
    sr_hasher s = match hash with Some (a, v) => Some (a, out, v) | None => None end.

  Lemma safe_new_tracks max hash s : safe_new max hash = Ok s -> tracks max hash "" s.
  Proof.
    unfold safe_new. destruct hash as [[a v]|]; cbn.
    - destruct (digest_context a) as [a'|] eqn:D; cbn; intros H; inversion H; subst. repeat split; auto.
      unfold digest_context in D. destruct a; inversion D; subst; reflexivity.
    - intros H; inversion H; subst. repeat split; auto.
  Qed.

  Lemma safe_new_ok max hash :
    (exists s, safe_new max hash = Ok s) <-> forall x v, hash <> Some (HashUnknown x, v).
  Proof.
    unfold safe_new. destruct hash as [[[| |x] v]|]; cbn; split; eauto; try (intros; discriminate).
    - intros (s & H). discriminate.
    - intros H. now destruct (H x v).
  Qed.

  Lemma safe_poll_data max hash out s d : tracks max hash out s -> d <> "" ->
    (byte_length (out ++ d) <= max /\ byte_length (out ++ d) <= u64_max /\
     exists s', safe_poll C s (Ready d) = (Ready d, s') /\ tracks max hash (out ++ d) s') \/
    (~ (byte_length (out ++ d) <= max /\ byte_length (out ++ d) <= u64_max) /\
     safe_poll C s (Ready d) = (Failed IoInvalidData, s)).
  Proof.
    intros (T1 & T2 & T3) N. apply byte_length_nonzero in N. unfold safe_poll. rewrite N, T1, T2, byte_length_app.
    destruct (N.leb_spec (byte_length out + byte_length d) u64_max);
    destruct (N.leb_spec (byte_length out + byte_length d) max); cbn [andb]; try (right; split; [lia|reflexivity]).
    left. split; [lia|]. split; [lia|]. eexists. split; [reflexivity|]. split; [auto|]. cbn.
    rewrite byte_length_app. split; auto. rewrite T3. now destruct hash as [[a v]|].
  Qed.

  Lemma safe_poll_end max hash out s : tracks max hash out s ->
    (hash_ok C hash out /\ fst (safe_poll C s (Ready "")) = Ready "") \/
    (~ hash_ok C hash out /\ fst (safe_poll C s (Ready "")) = Failed IoInvalidData).
  Proof.
    intros (T1 & T2 & T3). unfold safe_poll, byte_length. cbn. rewrite T3. destruct hash as [[a v]|]; cbn; [|left; auto].
    destruct (String.eqb_spec (ring_digest C a out) v) as [E|E]; cbn; [left|right]; auto.
  Qed.

  (** Soundness and completeness in one: from a tracking state. *)
  Lemma run_same max hash pre : forall out s, tracks max hash out s -> underway pre ->
    (length_ok max (out ++ delivered pre) /\ length_ok u64_max (out ++ delivered pre)) ->
    exists s', (forall rest, safe_run s (pre ++ rest)%list = (pre ++ safe_run s' rest)%list) /\
               tracks max hash (out ++ delivered pre) s'.
  Proof.
    induction pre as [|r pre IH]; intros out s T U (L1 & L2); cbn [delivered] in *.
    - exists s. split; auto. now rewrite sapp_nil_r.
    - inversion U as [|x l G U']; subst. destruct G as [->|(d & N & ->)]; cbn [delivered] in *.
      + destruct (IH out s T U' (conj L1 L2)) as (s' & H & T'). exists s'. split; auto.
        intros rest. cbn. now rewrite H.
      + rewrite <- sapp_assoc in L1, L2.
        destruct (safe_poll_data max hash out s d T N) as [(B1 & B2 & s1 & E & T1)|(B & _)].
        2:{ exfalso. apply B. unfold length_ok in L1, L2. fold (byte_length ((out ++ d) ++ delivered pre)) in L1, L2.
            rewrite byte_length_app in L1, L2. split; lia. }
        destruct (IH (out ++ d) s1 T1 U' (conj L1 L2)) as (s' & H & T'). exists s'. rewrite <- sapp_assoc.
        split; auto. intros rest. cbn [safe_run app]. rewrite E, H. reflexivity.
  Qed.

  (** What a reader in a tracking state hands out without error, it got from inside. *)
  Lemma run_inner max hash rs : forall out s pre post, tracks max hash out s -> underway pre ->
    length_ok max out -> length_ok u64_max out ->
    safe_run s rs = (pre ++ post)%list ->
    exists rest s', rs = (pre ++ rest)%list /\ post = safe_run s' rest /\ tracks max hash (out ++ delivered pre) s' /\
               length_ok max (out ++ delivered pre) /\ length_ok u64_max (out ++ delivered pre).
  Proof.
    induction rs as [|r rs IH]; intros out s pre post T U L0 L0' H.
    - cbn in H. symmetry in H. apply app_eq_nil in H as [-> ->].
      exists [], s. cbn. rewrite sapp_nil_r. auto.
    - destruct pre as [|p pre].
      { cbn in H. exists (r :: rs), s. cbn. rewrite sapp_nil_r. auto. }
      inversion U as [|x l G U']; subst. cbn [safe_run] in H.
      destruct (safe_poll C s r) as [r' s1] eqn:E. injection H as -> H.
      destruct r as [|k|d].
      + cbn in E. inversion E; subst.
        destruct (IH out s1 pre post T U' L0 L0' H) as (rest & s' & -> & R). exists rest, s'. split; [reflexivity|exact R].
      + cbn in E. inversion E; subst. destruct G as [G|(d & _ & G)]; discriminate.
      + destruct (string_dec d "") as [->|N].
        { destruct (safe_poll_end max hash out s T) as [(_ & F)|(_ & F)]; rewrite E in F; cbn in F; subst p;
            destruct G as [G|(d & Nd & G)]; inversion G; congruence. }
        destruct (safe_poll_data max hash out s d T N) as [(B1 & B2 & s2 & E2 & T2)|(_ & E2)];
          rewrite E in E2; inversion E2; subst.
        2:{ destruct G as [G|(d' & _ & G)]; discriminate. }
        destruct (IH (out ++ d) s2 pre post T2 U' B1 B2 H) as (rest & s' & -> & P & R & L & L').
        exists rest, s'. cbn [delivered app]. rewrite <- sapp_assoc. auto 10.
  Qed.

  (** The number of bytes handed out never exceeds the limit. *)
  Lemma run_bounded rs : forall s, sr_read s <= sr_max s ->
    sr_read s + byte_length (delivered (safe_run s rs)) <= sr_max s.
  Proof.
    induction rs as [|r rs IH]; intros s L; cbn [safe_run].
    - cbn. lia.
    - destruct (safe_poll C s r) as [r' s'] eqn:E. destruct r as [|k|d]; cbn in E.
      + inversion E; subst. cbn. auto.
      + inversion E; subst. cbn. auto.
      + destruct (byte_length d =? 0) eqn:Z.
        { assert (F : sr_read s' = sr_read s /\ sr_max s' = sr_max s /\ (r' = Ready "" \/ r' = Failed IoInvalidData)).
          { destruct (sr_hasher s) as [[[a f] x]|]; [destruct (negb _)|]; inversion E; subst; auto. }
          destruct F as (F1 & F2 & F3). specialize (IH s'). rewrite F1, F2 in IH. specialize (IH L).
          destruct F3 as [-> | ->]; cbn; exact IH. }
        destruct (N.leb_spec (sr_read s + byte_length d) u64_max);
        destruct (N.leb_spec (sr_read s + byte_length d) (sr_max s)); cbn [andb] in E; inversion E; subst; cbn [delivered]; auto.
        rewrite byte_length_app. specialize (IH (mkSafe (sr_max s)
             match sr_hasher s with Some (alg, fed, expected) => Some (alg, fed ++ d, expected) | None => None end
             (sr_read s + byte_length d))). cbn in IH. lia.
  Qed.

  (** Length errors do not confuse the hash: up to the first end of the inner stream
      the hasher is fed exactly what was handed out. *)
  Lemma run_tracks max hash rs : forall out s, tracks max hash out s ->
    (forall d, In (Ready d) rs -> d <> "") ->
    exists s', (forall rest, safe_run s (rs ++ rest)%list = (safe_run s rs ++ safe_run s' rest)%list) /\
               tracks max hash (out ++ delivered (safe_run s rs)) s'.
  Proof.
    induction rs as [|r rs IH]; intros out s T NE; cbn [safe_run].
    - exists s. cbn. rewrite sapp_nil_r. auto.
    - assert (NE' : forall d, In (Ready d) rs -> d <> "") by (intros d I; apply NE; now right).
      destruct r as [|k|d].
      + cbn [safe_poll]. destruct (IH out s T NE') as (s' & H & T'). exists s'. split; auto.
        intros rest. cbn. now rewrite H.
      + cbn [safe_poll]. destruct (IH out s T NE') as (s' & H & T'). exists s'. split; auto.
        intros rest. cbn. now rewrite H.
      + destruct (safe_poll_data max hash out s d T (NE d (or_introl eq_refl))) as [(_ & _ & s1 & E & T1)|(_ & E)];
          rewrite E.
        * destruct (IH (out ++ d) s1 T1 NE') as (s' & H & T'). exists s'. cbn [delivered]. rewrite <- sapp_assoc.
          split; auto. intros rest. cbn [safe_run app]. rewrite E, H. reflexivity.
        * destruct (IH out s T NE') as (s' & H & T'). exists s'. cbn [delivered]. split; auto.
          intros rest. cbn [safe_run app]. rewrite E, H. reflexivity.
  Qed.

  (** *** read_to_end *)

  Lemma contains_total rs : exists b e, contains rs b e.
  Proof.
    induction rs as [|r rs (b & e & IH)]; [eauto using contains|]. destruct r as [|k|d]; [eauto using contains..|].
    destruct (string_dec d "") as [->|N]; eauto using contains.
  Qed.

  Lemma contains_fun rs b e : contains rs b e -> forall b' e', contains rs b' e' -> b = b' /\ e = e'.
  Proof.
    induction 1; intros b' e' H'; inversion H'; subst; try congruence; auto.
    destruct (IHcontains _ _ H6) as [-> ->]. auto.
  Qed.

  Definition read_spec (max : N) (hash : option (hash_alg * bytes)) (b : bytes) (e : option io_kind)
             (res : result bytes) : Prop :=
    (~ (length_ok max b /\ length_ok u64_max b) /\ res = Err Opaque) \/
    (length_ok max b /\ length_ok u64_max b /\
     match e with
     | Some k => res = Err (of_io k)
     | None => (hash_ok C hash b /\ res = Ok b) \/ (~ hash_ok C hash b /\ res = Err Opaque)
     end).

  Lemma read_to_end_from max hash rs b e : contains rs b e ->
    forall out s, tracks max hash out s -> length_ok max out -> length_ok u64_max out ->
    read_spec max hash (out ++ b) e (read_to_end C s rs out).
  Proof.
    induction 1 as [|rest|k rest|rest b e H IH|d rest b e N H IH]; intros out s T L1 L2.
    - cbn [read_to_end]. rewrite sapp_nil_r. right. split; auto. split; auto.
      destruct (safe_poll_end max hash out s T) as [(O & ->)|(O & ->)]; auto.
    - cbn [read_to_end]. rewrite sapp_nil_r. right. split; auto. split; auto.
      destruct (safe_poll_end max hash out s T) as [(O & E)|(O & E)]; destruct (safe_poll C s (Ready "")) as [r s'];
        cbn in E; subst r; auto.
    - cbn. rewrite sapp_nil_r. right. auto.
    - cbn. now apply IH.
    - cbn [read_to_end]. rewrite <- sapp_assoc.
      destruct (safe_poll_data max hash out s d T N) as [(B1 & B2 & s1 & -> & T1)|(B & ->)].
      + apply byte_length_nonzero in N. rewrite N. now apply IH.
      + left. split; auto. intros (X & Y). apply B. unfold length_ok in X, Y.
        fold (byte_length ((out ++ d) ++ b)) in X, Y. rewrite byte_length_app in X, Y. split; lia.
  Qed.

  Lemma read_to_end_spec max hash rs b e s : safe_new max hash = Ok s -> contains rs b e ->
    read_spec max hash b e (read_to_end C s rs "").
  Proof.
    intros N H. apply safe_new_tracks in N.
    change b with ("" ++ b). apply (read_to_end_from max hash rs b e H "" s N); unfold length_ok; cbn; lia.
  Qed.

  Lemma read_to_end_ok max hash rs b s : safe_new max hash = Ok s ->
    read_to_end C s rs "" = Ok b <->
    contains rs b None /\ length_ok max b /\ length_ok u64_max b /\ hash_ok C hash b.
  Proof.
    intros N. destruct (contains_total rs) as (b0 & e0 & H0).
    pose proof (read_to_end_spec max hash rs b0 e0 s N H0) as S. split.
    - intros E. rewrite E in S. destruct S as [(_ & S)|(L1 & L2 & S)]; [discriminate|].
      destruct e0; [discriminate|]. destruct S as [(O & S)|(_ & S)]; inversion S; subst. auto.
    - intros (H & L1 & L2 & O). destruct (contains_fun _ _ _ H0 _ _ H) as [-> ->].
      destruct S as [(S & _)|(_ & _ & [(_ & S)|(S & _)])]; auto; tauto.
  Qed.

  (** *** Consumers of a checked reader *)

  Lemma read_plain_contains rs : forall out,
    match read_plain rs out with
    | inl b => exists b', contains rs b' None /\ b = out ++ b'
    | inr k => exists b', contains rs b' (Some k)
    end.
  Proof.
    induction rs as [|[|k|d] rs IH]; intros out; cbn.
    - exists "". rewrite sapp_nil_r. split; [constructor|auto].
    - specialize (IH out). destruct (read_plain rs out) as [b|k].
      + destruct IH as (b' & H & ->). eauto using contains.
      + destruct IH as (b' & H). eauto using contains.
    - eauto using contains.
    - destruct (byte_length d =? 0) eqn:Z.
      + apply byte_length_zero in Z as ->. exists "". rewrite sapp_nil_r. split; [constructor|auto].
      + apply byte_length_nonzero in Z. specialize (IH (out ++ d)). destruct (read_plain rs (out ++ d)) as [b|k].
        * destruct IH as (b' & H & ->). exists (d ++ b'). split; [now constructor|]. now rewrite sapp_assoc.
        * destruct IH as (b' & H). eauto using contains.
  Qed.

  Lemma read_plain_iff rs b : read_plain rs "" = inl b <-> contains rs b None.
  Proof.
    pose proof (read_plain_contains rs "") as H. split.
    - intros E. rewrite E in H. destruct H as (b' & H & ->). exact H.
    - intros H'. destruct (read_plain rs "") as [b0|k].
      + destruct H as (b' & H & ->). destruct (contains_fun _ _ _ H _ _ H') as [-> _]. reflexivity.
      + destruct H as (b' & H). destruct (contains_fun _ _ _ H _ _ H') as [_ F]. discriminate.
  Qed.

  (** Reading the checked reader as an ordinary one gives the same as read_to_end. *)
  Lemma read_checked rs : forall s out,
    match read_plain (checked_stream C s rs) out with
    | inl b => read_to_end C s rs out = Ok b
    | inr k => read_to_end C s rs out = Err (of_io k)
    end.
  Proof.
    induction rs as [|r rs IH]; intros s out; cbn [checked_stream read_to_end].
    - unfold safe_poll, byte_length. cbn. destruct (sr_hasher s) as [[[a f] x]|]; cbn; auto.
      destruct (negb _); cbn; auto.
    - destruct (safe_poll C s r) as [r' s'] eqn:E. destruct r' as [|k|d]; cbn [read_plain]; auto.
      + apply IH.
      + destruct (byte_length d =? 0); auto. apply IH.
  Qed.

  Lemma checked_contains rs s b : contains (checked_stream C s rs) b None <-> read_to_end C s rs "" = Ok b.
  Proof.
    rewrite <- read_plain_iff. pose proof (read_checked rs s "") as H.
    destruct (read_plain (checked_stream C s rs) "") as [b'|k]; rewrite H; split; intros E; inversion E; auto.
  Qed.

  (** *** calculate_hashes *)

  Lemma loop_spec rs b e : contains rs b e -> forall size ctxs,
    calculate_loop rs size ctxs =
    match e with
    | Some k => Err (of_io k)
    | None => Ok (size + byte_length b, map (fun c => (fst c, snd c ++ b)) ctxs)
    end.
  Proof.
    assert (Z : forall (ctxs : list (hash_alg * bytes)), ctxs = map (fun c => (fst c, snd c ++ "")) ctxs).
    { induction ctxs as [|[a x] l IH]; cbn; auto. now rewrite sapp_nil_r, <- IH. }
    induction 1 as [|rest|k rest|rest b e H IH|d rest b e N H IH]; intros size ctxs.
    - cbn. rewrite <- Z. f_equal. f_equal. unfold byte_length. cbn. lia.
    - cbn. rewrite <- Z. f_equal. f_equal. unfold byte_length. cbn. lia.
    - reflexivity.
    - cbn. apply IH.
    - apply byte_length_nonzero in N. cbn [calculate_loop]. rewrite N, IH. destruct e; auto.
      rewrite byte_length_app, map_map. f_equal. f_equal; [lia|].
      apply map_ext. intros [a x]. cbn. now rewrite sapp_assoc.
  Qed.

  Lemma contexts_spec algs : forall m,
    match contexts algs m with
    | Ok m' => (forall a, In a algs -> forall x, a <> HashUnknown x) /\
               forall a, lookup a m' = if mem a algs then Some "" else lookup a m
    | Err e => e = IllegalArgument /\ exists x, In (HashUnknown x) algs
    end.
  Proof.
    induction algs as [|a algs IH]; intros m; cbn [contexts].
    - split; [intros a []|]. reflexivity.
    - destruct (digest_context a) as [a'|e] eqn:D; cbn [rbind].
      + assert (a' = a /\ forall x, a <> HashUnknown x) as [-> N].
        { destruct a; inversion D; split; auto; discriminate. }
        specialize (IH (insert a "" m)). destruct (contexts algs (insert a "" m)) as [m'|e].
        * destruct IH as (H1 & H2). split.
          { intros b [<-|I]; auto. }
          intros b. rewrite H2, lookup_insert. cbn [mem]. destruct (mem b algs) eqn:Mb.
          { now rewrite orb_true_r. }
          rewrite orb_false_r. reflexivity.
        * destruct IH as (-> & x & I). split; auto. exists x. now right.
      + destruct a as [| |x]; inversion D; subst. split; auto. exists x. now left.
  Qed.

  Lemma lookup_map {A} (f : hash_alg -> A -> A) a m :
    lookup a (map (fun c => (fst c, f (fst c) (snd c))) m) = option_map (f a) (lookup a m).
  Proof.
    induction m as [|[b x] m IH]; cbn; auto. destruct (hash_alg_eqb a b) eqn:E; auto.
    apply hash_alg_eqb_eq in E as ->. reflexivity.
  Qed.

  Lemma calculate_spec rs algs b e : contains rs b e ->
    match calculate_hashes C rs algs with
    | Ok (size, hashes) =>
        e = None /\ algs <> [] /\ (forall a, In a algs -> forall x, a <> HashUnknown x) /\
        size = byte_length b /\
        forall a, lookup a hashes = if mem a algs then Some (ring_digest C a b) else None
    | Err er =>
        (er = IllegalArgument /\ (algs = [] \/ exists x, In (HashUnknown x) algs)) \/
        exists k, e = Some k /\ er = of_io k
    end.
  Proof.
    intros H. destruct algs as [|a0 algs0]; [cbn; auto|]. set (algs := a0 :: algs0).
    change (calculate_hashes C rs algs) with
      (let? ctxs := contexts algs [] in let? (size, ctxs) := calculate_loop rs 0 ctxs in
       Ok (size, map (fun c => (fst c, ring_digest C (fst c) (snd c))) ctxs)).
    pose proof (contexts_spec algs []) as S. destruct (contexts algs []) as [m|er].
    - destruct S as (S1 & S2). cbn [rbind]. rewrite (loop_spec _ _ _ H). destruct e as [k|]; cbn [rbind]; eauto.
      split; auto. split; [discriminate|]. split; auto. split; [lia|].
      intros a. rewrite (lookup_map (fun a x => ring_digest C a x)).
      rewrite (lookup_map (fun a x => x ++ b)). rewrite S2. cbn [lookup].
      destruct (mem a algs); reflexivity.
    - destruct S as (-> & S). cbn. left. auto.
  Qed.
End Safe.
