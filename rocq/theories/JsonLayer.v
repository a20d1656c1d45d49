(** * Lemmas about [Json] as the interchange of the client *)
From Coq Require Import String List NArith ZArith Bool Lia.
From Verif Require Import Base BaseFacts JsonValue JsonText SpecJson JsonComplete JsonSound JsonProofs Metadata Serde
     Keys Shims SerdeProofs SpecKeys KeyProofs SpecDates SpecMeta ShimsProofs TextProofs.
Import ListNotations.
Open Scope nat_scope.
Open Scope string_scope.

Lemma decoded_Ok {A} (o : option A) a : decoded o = Ok a <-> o = Some a.
Proof. destruct o; cbn; split; intros H; inversion H; reflexivity. Qed.

Lemma from_slice_Ok {A} (d : decoder A) b a :
  json_from_slice d b = Ok a <-> exists j, parse b = Ok j /\ d j = Some a.
Proof.
  unfold json_from_slice. split.
  - intros H. apply rbind_Ok in H as (j & P & H). apply decoded_Ok in H. eauto.
  - intros (j & P & H). rewrite P. cbn. rewrite H. reflexivity.
Qed.
Lemma deserialize_Ok {A} (d : decoder A) j a : json_deserialize d j = Ok a <-> d j = Some a.
Proof. apply decoded_Ok. Qed.

Lemma parse_fit b j : parse b = Ok j -> fit max_depth j.
Proof. intros P. split; [exact (parse_holds _ _ P)|exact (parse_depth _ _ P)]. Qed.

(** Texts of a tree that fits. *)
Lemma write_again j : fit max_depth j -> parse (write j) = Ok j.
Proof. intros [H D]. now apply parse_write. Qed.
Lemma pretty_again j : fit max_depth j -> parse (pretty 0 j) = Ok j.
Proof. intros [H D]. now apply parse_pretty. Qed.

Lemma envelope_raw b sigs raw : json_from_slice d_signed b = Ok (sigs, raw) -> fit max_depth raw /\ to_value raw = raw.
Proof.
  intros H. apply from_slice_Ok in H as (j & P & D). apply parse_fit in P. unfold d_signed in D.
  fit_fields D P. inversion E0; subst. inversion D; subst. split; [|apply to_value_idem].
  apply fit_to_value. apply (fit_le 126); [unfold max_depth; lia|assumption].
Qed.

(** ** Numbers that are not integers *)
Definition clean (j : json) : Prop := ~ has_float j.
Lemma clean_str s : clean (JStr s).
Proof. intros H; inversion H. Qed.
Lemma clean_int z : clean (JInt z).
Proof. intros H; inversion H. Qed.
Lemma clean_bool b : clean (JBool b).
Proof. intros H; inversion H. Qed.
Lemma clean_arr l : Forall clean l -> clean (JArr l).
Proof. intros F H. inversion H; subst. rewrite Forall_forall in F. eapply F; eassumption. Qed.
Lemma clean_obj m : Forall (fun kv => clean (snd kv)) m -> clean (JObj m).
Proof. intros F H. inversion H; subst. rewrite Forall_forall in F. apply (F (k, j)); assumption. Qed.
#[local] Hint Resolve clean_str clean_int clean_bool : clean.
Ltac clean_members := apply clean_obj; repeat (apply Forall_cons; [cbn [snd]; auto with clean|]); try apply Forall_nil.

Lemma clean_strings l : clean (e_strings l).
Proof. apply clean_arr. rewrite Forall_map. apply Forall_forall. auto with clean. Qed.
Lemma clean_map {A} (e : A -> option json) m j :
  (forall n a j, In (n, a) m -> e a = Some j -> clean j) -> e_map e m = Some j -> clean j.
Proof.
  intros C H. unfold e_map in H. bound H. inversion H; subst. apply clean_obj. apply all_some_Some in E.
  rewrite Forall_forall. intros [n v] I.
  assert (G : exists x, In x m /\ (have v := e (snd x) in Some (fst x, v)) = Some (n, v)).
  { clear -E I. induction E as [|y z ? ? E0 E IH]; [destruct I|]. destruct I as [->|I]; [exists y; split; [now left|assumption]|].
    destruct (IH I) as (w & ? & ?). exists w. split; [now right|assumption]. }
  destruct G as ([n' a'] & I' & G). cbn in G. bound G. inversion G; subst. cbn. eapply C; eassumption.
Qed.
Lemma clean_hashes l j : e_hashes l = Some j -> clean j.
Proof.
  unfold e_hashes. intros H. bound H. inversion H; subst. apply clean_obj. apply all_some_Some in E.
  clear H. induction E as [|? ? ? ? E1 _ IH]; constructor; [|exact IH]. bound E1. inversion E1; subst. cbn. auto with clean.
Qed.
Lemma clean_desc d j : e_meta_desc d = Some j -> clean j.
Proof.
  unfold e_meta_desc. intros H. bound H. inversion H; subst. clean_members. unfold e_uint. auto with clean.
  unfold e_uint. auto with clean. eapply clean_hashes; eassumption.
Qed.
Lemma clean_scheme s : clean (e_scheme s).
Proof. destruct s; cbn; auto with clean. clean_members. Qed.
Lemma clean_key k j : e_key k = Some j -> clean j.
Proof.
  assert (G : forall t s h p, clean (shim_key_json t s h p)).
  { intros t s h p. unfold shim_key_json. cbn [app]. apply clean_obj.
    do 2 (apply Forall_cons; [cbn [snd]; auto using clean_scheme with clean|]).
    apply Forall_app. split.
    - destruct h as [h|]; cbn [opt_member]; repeat constructor. apply clean_strings.
    - repeat constructor. cbn [snd]. clean_members. }
  unfold e_key, shim_public_key. destruct (pk_typ k); intros H; [|bound H|bound H]; inversion H; apply G.
Qed.

Lemma clean_role_def d : clean (e_role_def d).
Proof. unfold e_role_def. clean_members; [unfold e_uint; auto with clean|apply clean_strings]. Qed.
Lemma clean_delegation d : clean (e_delegation d).
Proof. unfold e_delegation, e_uint. clean_members; apply clean_strings. Qed.

Lemma clean_metadata r m j : e_metadata r m = Some j -> ~ custom_floats r m -> clean j.
Proof.
  destruct r; cbn [e_metadata]; intros H N.
  - unfold e_root, e_uint in H. bound H. inversion H; subst. clear H. clean_members.
    + eapply clean_map; [|eassumption]. intros ? k ? _. apply clean_key.
    + clean_members; apply clean_role_def.
  - unfold e_snapshot, e_uint in H. bound H. inversion H; subst. clear H. clean_members.
    eapply clean_map; [|eassumption]. intros ? k ? _. apply clean_desc.
  - unfold e_targets, e_uint in H. bound H. bound H. inversion H; subst. clear H. cbn [app]. apply clean_obj.
    do 4 (apply Forall_cons; [cbn [snd]; auto with clean|]).
    apply Forall_cons; cbn [snd].
    + eapply clean_map; [|eassumption]. intros p d x I X. unfold e_target_desc, e_uint in X. bound X. inversion X; subst.
      cbn [app]. apply clean_obj. apply Forall_cons; [cbn [snd]; auto with clean|].
      apply Forall_cons; [cbn [snd]; eapply clean_hashes; eassumption|].
      destruct (td_custom d) as [c|] eqn:EC; cbn [opt_member]; constructor; [|constructor]. cbn [snd].
      apply clean_obj. rewrite Forall_forall. intros [n v] Iv HF. apply N. cbn. exists p, d, c, n, v. auto.
    + destruct (tg_delegations m) as [ds|].
      * match goal with H : (have j := e_delegations ds in Some (Some j)) = Some _ |- _ => bound H; inversion H; subst end.
        cbn [opt_member]. constructor; [|constructor]. cbn [snd].
        match goal with H : e_delegations ds = Some _ |- _ => unfold e_delegations in H; bound H; inversion H; subst end.
        clean_members.
        -- eapply clean_map; [|eassumption]. intros ? k ? _. apply clean_key.
        -- apply clean_arr. rewrite Forall_map. apply Forall_forall. intros dg _. apply clean_delegation.
      * match goal with H : Some None = Some _ |- _ => inversion H; subst end. constructor.
  - unfold e_timestamp, e_uint in H. bound H. inversion H; subst. clear H. clean_members. clean_members.
    eapply clean_desc; eassumption.
Qed.

Lemma clean_to_value j : clean j -> clean (to_value j).
Proof.
  induction j as [| | | | |l IH|m IH] using json_nested_ind; intros H; try exact H.
  - cbn. apply clean_arr. rewrite Forall_map. rewrite Forall_forall in *. intros x I. apply IH; [exact I|].
    intros F. apply H. econstructor; eassumption.
  - rewrite to_value_obj. apply clean_obj. apply btree_Forall. rewrite Forall_map. rewrite Forall_forall in *.
    intros [n v] I. cbn. apply (IH (n, v) I). intros F. apply H. econstructor; eassumption.
Qed.

(** ** Metadata through the interchange *)
Lemma writer_Ok r m j b : e_metadata r m = Some j -> json_to_writer (e_metadata r m) = Ok b -> b = write (to_value j).
Proof.
  intros E H. unfold json_to_writer, json_serialize in H. rewrite E in H. cbn in H.
  apply canonicalize_Ok in H as [_ ->]. now rewrite to_value_idem.
Qed.

Lemma metadata_texts C r t m : json_from_slice (d_metadata C r) t = Ok m -> plain_time (expiry r m) ->
  exists j, e_metadata r m = Some j /\ fit max_depth j /\ d_metadata C r j = Some m /\
            json_from_slice (d_metadata C r) (write (to_value j)) = Ok m /\
            json_from_slice (d_metadata C r) (pretty 0 (to_value j)) = Ok m.
Proof.
  intros H P. apply from_slice_Ok in H as (j0 & P0 & D0).
  destruct (metadata_again C r m (metadata_wf _ _ _ _ D0) P) as (j & E & D). exists j.
  assert (F : fit max_depth j).
  { refine (textual_metadata C r max_depth _ _ _ _ (parse_fit _ _ P0) D0 E). unfold max_depth; lia. }
  pose proof (stable_metadata C r _ _ D) as S.
  repeat split; auto; try apply F; apply from_slice_Ok; exists (to_value j); split; auto;
    [apply write_again|apply pretty_again]; apply fit_to_value, F.
Qed.

(** Floats in decoded metadata come from floats in the document. *)
Lemma clean_arr_inv l : clean (JArr l) -> Forall clean l.
Proof. intros C. apply Forall_forall. intros x I F. apply C. econstructor; eassumption. Qed.
Lemma clean_obj_inv m : clean (JObj m) -> Forall (fun kv => clean (snd kv)) m.
Proof. intros C. apply Forall_forall. intros [k x] I F. apply C. econstructor; eassumption. Qed.
Lemma fields_clean names deny opt j fs : clean j -> d_fields names deny opt j = Some fs ->
  Forall (fun f => forall x, f = Some x -> clean x) fs.
Proof.
  intros F H. destruct j as [| | | | |l|m]; try discriminate; cbn [d_fields] in H.
  - apply clean_arr_inv in F. destruct (_ && _)%bool; [|discriminate]. inversion H; subst. apply Forall_app. split.
    + rewrite Forall_map. revert F. apply Forall_impl. intros x X y E. inversion E; subst; exact X.
    + apply Forall_forall. intros x I. apply repeat_spec in I. subst. discriminate.
  - apply clean_obj_inv in F.
    match type of H with (if ?b then _ else _) = _ => destruct b end; [|discriminate]. inversion H; subst.
    rewrite Forall_map. apply Forall_forall. intros nm _ x E. apply lookup_In in E. rewrite Forall_forall in F.
    apply F in E. exact E.
Qed.
Lemma map_clean {A} k (d : decoder A) j m : keeps k -> clean j -> d_map k d j = Some m ->
  Forall (fun nv => exists x, clean x /\ d x = Some (snd nv)) m.
Proof.
  intros K C H. unfold d_map in H. bound H. inversion H; subst. apply btree_Forall.
  apply (d_entries_Some k d j a K) in E as (es & -> & F). apply clean_obj_inv in C.
  clear -F C. induction F as [|x [n v] es m (E & N & D) _ IH]; constructor; inversion C; subst; auto.
  cbn in *. eauto.
Qed.
Ltac clean_fields H CJ :=
  match type of H with
  | match d_fields ?n ?dn ?o ?j with _ => _ end = _ =>
      let fs := fresh "fs" in let F := fresh "F" in let FF := fresh "FF" in
      destruct (d_fields n dn o j) as [fs|] eqn:F; [|discriminate];
      pose proof (fields_clean _ _ _ _ _ CJ F) as FF; clear F;
      repeat match type of H with context [match ?l with [] => _ | _ :: _ => _ end] => is_var l; destruct l; try discriminate end
  end;
  bounds H;
  repeat match goal with
  | E : d_required _ _ = Some _ |- _ => apply required in E; let j := fresh "j" in destruct E as (j & -> & E)
  end;
  repeat match goal with
  | FF : Forall _ (_ :: _) |- _ =>
      let X := fresh "X" in apply Forall_cons_iff in FF; destruct FF as [X FF]; try specialize (X _ eq_refl)
  end.

Lemma floats_decoded C r j m : d_metadata C r j = Some m -> custom_floats r m -> has_float j.
Proof.
  intros D CF. destruct (convert_cases j) as [[N _]|[F _]]; [exfalso|exact F].
  destruct r; cbn in CF; try contradiction. destruct CF as (p & d & c & n & v & I & EC & Iv & F).
  cbn in D. unfold d_targets in D. clean_fields D N. destruct (labelled Targets a a0); [|discriminate]. bound D.
  apply get_ok_Some in D. unfold targets_new in D. destruct (a1 <? 1)%N; [discriminate|]. inversion D; subst. cbn in I.
  match goal with H : d_map path_of_string _ _ = Some _ |- _ =>
    apply (map_clean _ _ _ _ keeps_path ltac:(eassumption)) in H; rewrite Forall_forall in H;
    destruct (H _ I) as (x & Cx & Dx) end.
  cbn in Dx. unfold d_target_desc in Dx. clean_fields Dx Cx. apply get_ok_Some in Dx. unfold target_desc_new in Dx.
  match type of Dx with match ?l with [] => _ | _ => _ end = _ => destruct l; [discriminate|] end. inversion Dx; subst.
  cbn in EC. subst.
  match goal with H : d_optional d_custom _ = Some _ |- _ => apply optional in H; destruct H as (y & -> & Dy) end.
  match goal with X : forall x, Some y = Some x -> clean x |- _ => specialize (X _ eq_refl) end.
  unfold d_custom in Dy. apply (map_clean _ _ _ _ keeps_Some ltac:(eassumption)) in Dy. rewrite Forall_forall in Dy.
  destruct (Dy _ Iv) as (z & Cz & Dz). cbn in Dz. inversion Dz; subst. revert F. now apply clean_to_value.
Qed.

(** ** Labels *)
Lemma enum_role j r : d_role j = Some r -> j = JStr (role_name r) \/ j = JObj [(role_name r, JNull)].
Proof.
  assert (G : forall s, role_of_name s = Some r -> s = role_name r).
  { intros s. unfold role_of_name.
    repeat match goal with |- context [String.eqb s ?x] => destruct (String.eqb_spec s x) end; intros H; inversion H; subst; reflexivity. }
  destruct j as [| | | |s| |[|[n v] [|? ?]]]; try discriminate; cbn.
  - intros H. left. f_equal. now apply G.
  - destruct v; try discriminate. destruct (role_of_name n) eqn:E; [|discriminate]. intros H. inversion H; subst.
    right. apply G in E. now subst.
  - destruct v; discriminate.
Qed.
Lemma fields_label names dn o j t sv fs :
  d_fields ("_type" :: "spec_version" :: names) dn o j = Some (Some t :: Some sv :: fs) ->
  (exists mem, j = JObj mem /\ lookup "_type" mem = Some t /\ lookup "spec_version" mem = Some sv) \/
  (exists rest, j = JArr (t :: sv :: rest)).
Proof.
  destruct j as [| | | | |l|m]; try discriminate; unfold d_fields; intros H.
  - match type of H with (if ?b then _ else _) = _ => destruct b end; [|discriminate]. right.
    destruct l as [|a [|b rest]]; inversion H; subst; eauto.
  - match type of H with (if ?b then _ else _) = _ => destruct b end; [|discriminate]. left.
    exists m. cbn [map] in H. inversion H; subst. auto.
Qed.
Lemma label_checked C r j m : d_metadata C r j = Some m ->
  (exists mem l, j = JObj mem /\ lookup "_type" mem = Some l /\
                 (l = JStr (role_name r) \/ l = JObj [(role_name r, JNull)]) /\
                 lookup "spec_version" mem = Some (JStr "1.0")) \/
  (exists l rest, j = JArr (l :: JStr "1.0" :: rest) /\ (l = JStr (role_name r) \/ l = JObj [(role_name r, JNull)])).
Proof.
  intros D.
  assert (G : exists names dn o t sv fs, d_fields ("_type" :: "spec_version" :: names) dn o j = Some (Some t :: Some sv :: fs)
              /\ d_role t = Some r /\ sv = JStr "1.0").
  { destruct r; cbn in D; unfold d_root, d_snapshot, d_targets, d_timestamp in D;
    match type of D with match d_fields (_ :: _ :: ?n) ?dn ?o ?j with _ => _ end = _ =>
      destruct (d_fields ("_type" :: "spec_version" :: n) dn o j) as [fs|] eqn:F; [|discriminate];
      exists n, dn, o end;
    repeat match type of D with context [match ?l with [] => _ | _ :: _ => _ end] => is_var l; destruct l; try discriminate end;
    bounds D;
    repeat match goal with
    | E : d_required _ _ = Some _ |- _ => apply required in E; let j := fresh "j" in destruct E as (j & -> & E)
    end;
    repeat match type of D with context [let '(_, _) := ?x in _] => is_var x; destruct x end;
    match type of D with (if ?b then _ else _) = _ => destruct b eqn:L; [|discriminate] end;
    unfold labelled in L; apply andb_true_iff in L as [L1 L2]; apply String.eqb_eq in L2;
    do 3 eexists; (split; [exact F|]); (split; [|]).
    all: try match goal with E : d_role _ = Some ?x |- _ = Some _ => rewrite E; destruct x; try discriminate; reflexivity end.
    all: match goal with E : d_str ?x = Some _ |- ?x = _ => destruct x; inversion E; subst; reflexivity end. }
  destruct G as (names & dn & o & t & sv & fs & F & R & ->). apply enum_role in R. apply fields_label in F as [(mem & -> & A & B)|(rest & ->)].
  - left. eauto 10.
  - right. eauto.
Qed.

(** ** Repeated names *)
Lemma map_unique_names {A} k (d : decoder A) j m : keeps k -> d_map_unique k d j = Some m ->
  exists es, j = JObj es /\ NoDup (map fst es).
Proof.
  intros K H. unfold d_map_unique in H. bound H. destruct (no_repeats (map fst a)) eqn:N; [|discriminate].
  apply no_repeats_NoDup in N. apply (d_entries_Some k d j a K) in E as (es & -> & F). exists es. split; [reflexivity|].
  replace (map fst es) with (map fst a); [exact N|]. clear -F. induction F as [|x y ? ? (E & _) _ IH]; cbn; congruence.
Qed.
Lemma fields_lookup names dn o mem fs : d_fields names dn o (JObj mem) = Some fs -> fs = map (fun n => lookup n mem) names.
Proof.
  unfold d_fields. match goal with |- (if ?b then _ else _) = _ -> _ => destruct b end; [|discriminate].
  intros H. now inversion H.
Qed.
Ltac looked_up D :=
  match type of D with
  | match d_fields ?n ?dn ?o ?j with _ => _ end = _ =>
      let fs := fresh "fs" in let F := fresh "F" in
      destruct (d_fields n dn o j) as [fs|] eqn:F; [|discriminate]; apply fields_lookup in F; subst fs; cbn [map] in D
  end; bounds D.

Lemma root_names_unique C mem ks m : d_metadata C Root (JObj mem) = Some m ->
  lookup "keys" mem = Some (JObj ks) -> NoDup (map fst ks).
Proof.
  intros D L. cbn in D. unfold d_root in D. looked_up D.
  match goal with H : d_required (d_map_unique _ _) _ = Some _ |- _ =>
    rewrite L in H; cbn in H; apply (map_unique_names _ _ _ _ keeps_key_id) in H as (es & H & N); inversion H; subst; exact N end.
Qed.
Lemma snapshot_names_unique C mem ks m : d_metadata C Snapshot (JObj mem) = Some m ->
  lookup "meta" mem = Some (JObj ks) -> NoDup (map fst ks).
Proof.
  intros D L. cbn in D. unfold d_snapshot in D. looked_up D.
  match goal with H : d_required (d_map_unique _ _) _ = Some _ |- _ =>
    rewrite L in H; cbn in H; apply (map_unique_names _ _ _ _ keeps_Some) in H as (es & H & N); inversion H; subst; exact N end.
Qed.
Lemma delegation_names_unique C mem ds ks m : d_metadata C Targets (JObj mem) = Some m ->
  lookup "delegations" mem = Some (JObj ds) -> lookup "keys" ds = Some (JObj ks) -> NoDup (map fst ks).
Proof.
  intros D L1 L2. cbn in D. unfold d_targets in D. looked_up D.
  match goal with H : d_optional _ _ = Some _ |- _ => rewrite L1 in H; unfold d_optional, d_opt in H; bound H end.
  match goal with H : d_delegations _ _ = Some _ |- _ => unfold d_delegations in H; looked_up H end.
  match goal with H : d_required (d_map_unique _ _) _ = Some _ |- _ =>
    rewrite L2 in H; cbn in H; apply (map_unique_names _ _ _ _ keeps_key_id) in H as (es & H & N); inversion H; subst; exact N end.
Qed.
