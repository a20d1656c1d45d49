(** * Signatures added to files: the proofs for C111 *)
From Coq Require Import String Ascii List NArith ZArith Bool Lia.
From Verif Require Import Base BaseFacts StringFacts Utf8 JsonValue JsonText SpecJson JsonComplete JsonSound JsonProofs Metadata Verify SpecVerify VerifyProofs
     Codec Serde Keys Shims SerdeProofs SpecKeys KeyProofs SpecMeta ShimsProofs TextProofs JsonLayer Builders SpecBuilders BuilderProofs
     SpecMore MoreProofs.
Import ListNotations.
Open Scope nat_scope.
Open Scope string_scope.
Open Scope list_scope.

Definition fair_sig (s : signature) : Prop := id_like (sig_keyid s) /\ utf8_valid (sig_keyid s) = true.

Lemma envelope_parts b sigs raw : json_from_slice d_signed b = Ok (sigs, raw) ->
  writable raw /\ in_order raw /\ Forall fair_sig sigs.
Proof.
  intros H. apply from_slice_Ok in H as (j & P & D). apply parse_fit in P. unfold d_signed in D.
  fit_fields D P. inversion E0; subst. inversion D; subst. split; [|split; [apply to_value_normal|]].
  - apply fit_to_value. assumption.
  - match goal with H : d_vec d_signature _ = Some _ |- _ => eapply vec_fit in H; [destruct H as (k & _ & G)|eassumption] end.
    revert G. apply Forall_impl. intros s (x & Fx & Ds). unfold d_signature in Ds. fit_fields Ds Fx.
    inversion Ds; subst. unfold fair_sig. cbn [sig_keyid].
    match goal with H : d_key_id _ = Some _ |- _ => unfold d_key_id in H; bound H; apply key_id_of_string_Some in H as [-> K] end.
    split; [exact K|]. eapply d_str_utf8; [|eassumption]; eassumption.
Qed.

(** A document read from a file can be written and read again, with any signatures. *)
Lemma written_envelope sigs raw msg : writable raw -> in_order raw -> Forall fair_sig sigs -> canonicalize raw = Ok msg ->
  exists b, to_raw (mkSigned sigs raw) = Ok b /\ json_from_slice d_signed b = Ok (sigs, raw).
Proof.
  intros W O F K. exists (write (e_signed sigs raw)). split; [exact (to_raw_bytes (mkSigned sigs raw) msg O K)|].
  apply from_slice_Ok. exists (e_signed sigs raw). split.
  - apply write_again, signed_fit; [exact W|]. revert F. apply Forall_impl. now intros s [_ U].
  - apply signed_back; [exact O|]. revert F. apply Forall_impl. now intros s [I _].
Qed.

Section Json.
  Context (C : crypto) (o : hash_order).
  Let E : env := mkEnv C o (json_interchange C).

  Lemma merged_more file other s s2 s' msg : json_from_slice d_signed file = Ok (sg_sigs s, sg_raw s) ->
    json_from_slice d_signed other = Ok (sg_sigs s2, sg_raw s2) -> canonicalize (sg_raw s) = Ok msg ->
    merge_signatures s s2 = (s', Ok tt) -> exists b, to_raw s' = Ok b /\ more_signed E file b.
  Proof.
    intros F1 F2 K M. destruct (envelope_parts _ _ _ F1) as (W & O & G1). destruct (envelope_parts _ _ _ F2) as (_ & _ & G2).
    apply merge_cases in M as [(_ & _ & Q1 & Q2)|(_ & X & _)]; [|discriminate].
    destruct s' as [sigs' raw']. cbn [sg_raw sg_sigs] in Q1, Q2. subst raw'.
    destruct (written_envelope sigs' (sg_raw s) msg W O) as (b & B & R); [|exact K|].
    - rewrite Q2. apply Forall_app. split; [exact G1|]. rewrite Forall_forall in *. intros x I. apply filter_In in I as [I _]. now apply G2.
    - exists b. split; [exact B|]. exists (sg_sigs s), sigs', (sg_raw s). split; [exact F1|]. split; [exact R|].
      rewrite Q2. apply at_least_snoc. intros x I. apply filter_In in I as [_ I]. apply negb_true_iff, mem_not_In in I. exact I.
  Qed.

  Lemma filter_last {A} (id : A -> string) i j (l : list A) x : j <> i -> last_with id i l x ->
    last_with id i (filter (fun y => negb (String.eqb (id y) j)) l) x.
  Proof.
    intros N (l1 & l2 & -> & Ex & U). exists (filter (fun y => negb (String.eqb (id y) j)) l1), (filter (fun y => negb (String.eqb (id y) j)) l2).
    split; [|split; [exact Ex|]].
    - rewrite filter_app. cbn [filter]. rewrite Ex. now rewrite (proj2 (String.eqb_neq i j)) by congruence.
    - intros y H. apply filter_In in H as [H _]. now apply U.
  Qed.

  Lemma added_authentic file s k rnd s' r t keys m : json_from_slice d_signed file = Ok (sg_sigs s, sg_raw s) ->
    working_key C k -> ids_identify keys [k] -> add_signature s k rnd = (s', Ok tt) ->
    authentic E r file t keys m -> exists b, to_raw s' = Ok b /\ authentic E r b t keys m.
  Proof.
    intros F (Own & Il & Un & Wk) Id A (T & sigs & signed & msg & E1 & E2 & (ids & N & L & G) & E4).
    cbn in E1, E2, E4. rewrite F in E1. injection E1 as <- <-.
    destruct (envelope_parts _ _ _ F) as (W & O & G1). unfold add_signature in A. rewrite E2 in A. cbn [rbind] in A.
    unfold sign in A. destruct (sk_sign k rnd msg) as [v|e] eqn:Sg; [|discriminate]. cbn [rbind] in A. injection A as <-.
    set (new := mkSig (pk_id (sk_public k)) v) in *.
    destruct (written_envelope (filter (fun x => negb (String.eqb (sig_keyid x) (pk_id (sk_public k)))) (sg_sigs s) ++ [new]) (sg_raw s) msg W O) as (b & B & R); [|exact E2|].
    { apply Forall_app. split; [rewrite Forall_forall in *; intros x I; apply filter_In in I as [I _]; now apply G1|].
      constructor; [|constructor]. split; [exact Il|]. apply ascii_utf8. eapply own_id_ascii; exact Own. }
    exists b. split; [exact B|]. split; [exact T|]. exists (filter (fun x => negb (String.eqb (sig_keyid x) (pk_id (sk_public k)))) (sg_sigs s) ++ [new]), (sg_raw s), msg.
    cbn. split; [exact R|]. split; [exact E2|]. split; [|exact E4]. exists ids. split; [exact N|]. split; [exact L|].
    intros i Hi. destruct (G i Hi) as (p & x & Lp & Lx & V). destruct (string_dec (pk_id (sk_public k)) i) as [<-|Ne].
    - exists p, new. split; [exact Lp|]. split.
      + exists (filter (fun x => negb (String.eqb (sig_keyid x) (pk_id (sk_public k)))) (sg_sigs s)), []. repeat split. intros y [].
      + destruct (last_In _ _ _ _ Lp) as [P1 P2]. rewrite (Id k p (or_introl eq_refl) P1 P2). split; [exact Un|]. now apply (Wk rnd).
    - exists p, x. split; [exact Lp|]. split; [|exact V].
      destruct (filter_last sig_keyid i _ _ _ Ne Lx) as (l1 & l2 & -> & Ex & U). exists l1, (l2 ++ [new]). rewrite <- app_assoc.
      split; [reflexivity|]. split; [exact Ex|]. intros y H. apply in_app_or in H as [H|[<-|[]]]; [now apply U|exact Ne].
  Qed.
End Json.
