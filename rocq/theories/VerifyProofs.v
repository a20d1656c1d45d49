(** Proofs about [verify_signatures]. *)
From Coq Require Import String List Arith NArith Bool Permutation Lia.
From Verif Require Import Base BaseFacts Metadata Verify SpecVerify.
Import ListNotations.
Open Scope N_scope.

Section Loop.
  Variable E : env.
  Variable auth : list (string * public_key).
  Variable msg : bytes.

  (** The entry (id, signature) counts. *)
  Definition good_entry (e : string * signature) : bool :=
    match lookup (fst e) auth with
    | Some k => is_ok (pk_verify (e_crypto E) k msg (snd e))
    | None => false
    end.

  Definition goods (l : list (string * signature)) : N := N.of_nat (length (filter good_entry l)).

  Lemma signature_loop_count l : forall needed, 1 <= needed ->
    signature_loop E auth msg needed l = needed - goods l.
  Proof.
    unfold goods. induction l as [|[kid s] l IH]; intros needed Hn; cbn [signature_loop filter].
    - cbn. lia.
    - replace (match lookup kid auth with
               | Some pub_key => match pk_verify (e_crypto E) pub_key msg s with
                                 | Ok _ => needed - 1 | Err _ => needed end
               | None => needed end)
        with (if good_entry (kid, s) then needed - 1 else needed).
      2:{ unfold good_entry; cbn [fst snd]. destruct (lookup kid auth); auto.
          destruct (pk_verify _ _ _ _); auto. }
      destruct (good_entry (kid, s)).
      + cbn [length]. destruct (N.eqb_spec (needed - 1) 0).
        * lia.
        * rewrite IH by lia. lia.
      + destruct (N.eqb_spec needed 0); [lia|]. now apply IH.
  Qed.

  Lemma goods_perm l l' : Permutation l l' -> goods l = goods l'.
  Proof.
    intros P. unfold goods. f_equal. apply Permutation_length.
    induction P; cbn; auto.
    - destruct (good_entry x); auto.
    - destruct (good_entry x), (good_entry y); auto. constructor.
    - eapply Permutation_trans; eauto.
  Qed.
End Loop.

Lemma pk_verify_valid C k msg s : is_ok (pk_verify C k msg s) = true <-> valid_under C k msg s.
Proof.
  unfold pk_verify, valid_under. destruct (pk_scheme k); cbn.
  1-3: destruct (ring_verify _ _ _ _ _); cbn; split; intros H; try discriminate; auto;
       try (split; auto; intros; discriminate); destruct H; discriminate.
  split; [discriminate|]. intros [H _]. exfalso. now apply (H s0).
Qed.

(** The collected map of a list keyed by an id function holds the last entry. *)
Lemma lookup_collect_last {A} (id : A -> string) l i x :
  lookup i (collect (map (fun a => (id a, a)) l)) = Some x <-> last_with id i l x.
Proof.
  rewrite lookup_collect. unfold last_with. split.
  - intros (l1 & l2 & Eq & N).
    apply map_eq_app in Eq as (a & b & -> & Ea & Eb).
    destruct b as [|y b]; [discriminate|]. cbn in Eb. inversion Eb; subst.
    exists a, b. split; [reflexivity|]. split; [reflexivity|].
    intros z I. apply (N (id z, z)). apply in_map_iff. exists z. auto.
  - intros (l1 & l2 & -> & <- & N).
    exists (map (fun a => (id a, a)) l1), (map (fun a => (id a, a)) l2). split.
    + rewrite map_app. reflexivity.
    + intros y I. apply in_map_iff in I as (z & <- & I). cbn. auto.
Qed.

Section Count.
  Variable E : env.

  Lemma good_entry_good_id keys sigs msg i s :
    lookup i (collect (map (fun s => (sig_keyid s, s)) sigs)) = Some s ->
    good_entry E (collect (map (fun k => (pk_id k, k)) keys)) msg (i, s) = true <->
    good_id (e_crypto E) keys sigs msg i.
  Proof.
    intros L. unfold good_entry; cbn [fst snd]. split.
    - destruct (lookup i (collect (map (fun k => (pk_id k, k)) keys))) as [k|] eqn:K; [|discriminate].
      intros V. exists k, s. split; [now apply lookup_collect_last|].
      split; [now apply lookup_collect_last|]. now apply pk_verify_valid.
    - intros (k & s' & Lk & Ls & V).
      apply lookup_collect_last in Lk. apply lookup_collect_last in Ls.
      rewrite Lk. assert (s' = s) as -> by congruence. now apply pk_verify_valid.
  Qed.

  Lemma NoDup_filter_map_fst {A B} (f : A * B -> bool) (l : list (A * B)) :
    NoDup (map fst l) -> NoDup (map fst (filter f l)).
  Proof.
    induction l as [|[a b] l IH]; cbn; auto.
    intros N. inversion N; subst. destruct (f (a, b)); auto. cbn. constructor; auto.
    intros I. apply H1. apply in_map_iff in I as ([a' b'] & <- & I).
    apply filter_In in I as [I _]. now apply (in_map fst) in I.
  Qed.

  Lemma threshold_met_count keys sigs msg t :
    threshold_met (e_crypto E) keys sigs msg t <->
    t <= goods E (collect (map (fun k => (pk_id k, k)) keys)) msg
               (collect (map (fun s => (sig_keyid s, s)) sigs)).
  Proof.
    set (auth := collect (map (fun k => (pk_id k, k)) keys)).
    set (sm := collect (map (fun s => (sig_keyid s, s)) sigs)).
    assert (Nsm : NoDup (map fst sm)) by apply collect_NoDup.
    split.
    - intros (ids & ND & <- & G). unfold goods.
      assert (incl ids (map fst (filter (good_entry E auth msg) sm))) as I.
      { intros i Hi. pose proof (G i Hi) as (k & s & Lk & Ls & V).
        apply lookup_collect_last in Ls as Ls'. fold sm in Ls'.
        apply in_map_iff. exists (i, s). split; [reflexivity|].
        apply filter_In. split; [now apply lookup_In|].
        apply good_entry_good_id with (sigs := sigs); auto. }
      apply NoDup_incl_length in I; auto. rewrite map_length in I. lia.
    - intros L.
      set (all := map fst (filter (good_entry E auth msg) sm)).
      exists (firstn (N.to_nat t) all). split; [|split].
      + assert (NoDup all) as ND by now apply NoDup_filter_map_fst.
        rewrite <- (firstn_skipn (N.to_nat t) all) in ND.
        revert ND. generalize (firstn (N.to_nat t) all) (skipn (N.to_nat t) all).
        intros l1 l2. induction l1; cbn; intros ND; constructor; inversion ND; subst; auto.
        intros I. apply H1. apply in_or_app. now left.
      + rewrite firstn_length. unfold all. rewrite map_length. unfold goods in L.
        rewrite Nat.min_l by lia. lia.
      + intros i Hi. assert (In i all) as I.
        { rewrite <- (firstn_skipn (N.to_nat t) all). apply in_or_app. now left. }
        apply in_map_iff in I as ([i' s] & Ei & I). cbn in Ei. subst i'.
        apply filter_In in I as [I G].
        apply (good_entry_good_id keys sigs msg i s); auto.
        now apply In_lookup.
  Qed.

  Lemma verify_signatures_iff r raw t keys m :
    verify_signatures E r raw t keys = Ok m <-> authentic E r raw t keys m.
  Proof.
    unfold verify_signatures, authentic.
    destruct (N.ltb_spec t 1) as [Lt|Ge].
    { split; [discriminate|]. intros [H _]. lia. }
    split.
    - intros H. split; auto.
      apply rbind_Ok in H as ([sigs signed] & He & H).
      destruct sigs as [|s0 sigs]; [discriminate|].
      apply rbind_Ok in H as (msg & Hc & H).
      exists (s0 :: sigs), signed, msg. split; auto. split; auto.
      rewrite signature_loop_count in H by auto.
      destruct (N.ltb_spec 0 (t - goods E (collect (map (fun k => (pk_id k, k)) keys)) msg
        (ho_fun (e_order E) (collect (map (fun s => (sig_keyid s, s)) (s0 :: sigs)))))) as [Lt|Le];
        [discriminate|].
      split; auto. apply threshold_met_count.
      erewrite goods_perm; [|apply (ho_perm (e_order E))]. lia.
    - intros (_ & sigs & signed & msg & He & Hc & Ht & Hd).
      rewrite He. cbn [rbind].
      destruct sigs as [|s0 sigs].
      { exfalso. destruct Ht as (ids & ND & L & G). destruct ids as [|i ids]; [cbn in L; lia|].
        destruct (G i (or_introl eq_refl)) as (k & s & _ & (l1 & l2 & E2 & _) & _).
        destruct l1; discriminate. }
      rewrite Hc. cbn [rbind].
      rewrite signature_loop_count by auto.
      apply threshold_met_count in Ht.
      erewrite goods_perm in Ht; [|apply (ho_perm (e_order E))].
      destruct (N.ltb_spec 0 (t - goods E (collect (map (fun k => (pk_id k, k)) keys)) msg
        (ho_fun (e_order E) (collect (map (fun s => (sig_keyid s, s)) (s0 :: sigs)))))); [lia|auto].
  Qed.

  (** The whole result, errors included. *)
  Lemma verify_signatures_result r raw t keys :
    verify_signatures E r raw t keys =
    if t <? 1 then Err VerificationFailure else
    match ic_envelope (e_ic E) raw with
    | Err e => Err e
    | Ok ([], _) => Err VerificationFailure
    | Ok (sigs, signed) =>
        match ic_canonicalize (e_ic E) signed with
        | Err e => Err e
        | Ok msg =>
            if goods E (collect (map (fun k => (pk_id k, k)) keys)) msg
                 (collect (map (fun s => (sig_keyid s, s)) sigs)) <? t
            then Err VerificationFailure else ic_from_slice (e_ic E) r msg
        end
    end.
  Proof.
    unfold verify_signatures. destruct (N.ltb_spec t 1); auto.
    destruct (ic_envelope (e_ic E) raw) as [[sigs signed]|]; cbn [rbind]; auto.
    destruct sigs as [|s0 sigs]; auto.
    destruct (ic_canonicalize (e_ic E) signed) as [msg|]; cbn [rbind]; auto.
    rewrite signature_loop_count by auto.
    rewrite <- (goods_perm _ _ _ _ _ (ho_perm (e_order E) _)).
    match goal with |- (if 0 <? t - ?g then _ else _) = _ =>
      destruct (N.ltb_spec 0 (t - g)), (N.ltb_spec g t); auto; lia end.
  Qed.
End Count.

Lemma threshold_met_mono C keys sigs msg t t' :
  t' <= t -> threshold_met C keys sigs msg t -> threshold_met C keys sigs msg t'.
Proof.
  intros L (ids & ND & El & G).
  exists (firstn (N.to_nat t') ids). split; [|split].
  - rewrite <- (firstn_skipn (N.to_nat t') ids) in ND. revert ND.
    generalize (firstn (N.to_nat t') ids) (skipn (N.to_nat t') ids).
    intros l1 l2. induction l1; cbn; intros ND; constructor; inversion ND; subst; auto.
    intros I. apply H1. apply in_or_app. now left.
  - rewrite firstn_length. rewrite Nat.min_l by lia. lia.
  - intros i I. apply G. rewrite <- (firstn_skipn (N.to_nat t') ids).
    apply in_or_app. now left.
Qed.

(** Two environments that differ in the hash order only. *)
Lemma verify_signatures_order C o1 o2 D r raw t keys :
  verify_signatures (mkEnv C o1 D) r raw t keys = verify_signatures (mkEnv C o2 D) r raw t keys.
Proof. rewrite !verify_signatures_result. reflexivity. Qed.

(** Same canonical bytes, same result. *)
Lemma verify_signatures_content E r raw1 raw2 t1 t2 keys1 keys2 s1 s2 sg1 sg2 msg m1 m2 :
  ic_envelope (e_ic E) raw1 = Ok (s1, sg1) -> ic_envelope (e_ic E) raw2 = Ok (s2, sg2) ->
  ic_canonicalize (e_ic E) sg1 = Ok msg -> ic_canonicalize (e_ic E) sg2 = Ok msg ->
  verify_signatures E r raw1 t1 keys1 = Ok m1 -> verify_signatures E r raw2 t2 keys2 = Ok m2 ->
  m1 = m2.
Proof.
  intros H1 H2 C1 C2 V1 V2.
  apply verify_signatures_iff in V1 as (_ & a & b & c & A1 & A2 & _ & A3).
  apply verify_signatures_iff in V2 as (_ & a' & b' & c' & B1 & B2 & _ & B3).
  congruence.
Qed.
