(** * Proofs about members the library does not know *)
From Coq Require Import String List NArith ZArith Bool Lia.
From Verif Require Import Base BaseFacts JsonValue JsonText JsonProofs Metadata Serde Keys Shims SpecForward.
Import ListNotations.
Open Scope string_scope.

Definition ignores {A} (d : json -> option A) (s : shape) : Prop := forall j j', grown s j j' -> d j' = d j.

Lemma ignores_leaf {A} (d : json -> option A) : ignores d Leaf.
Proof.
  intros j j' G. remember Leaf as s eqn:E. induction G; try discriminate; [reflexivity|].
  rewrite (IHG2 E). exact (IHG1 E).
Qed.

Lemma ignores_struct {A} (d : json -> option A) fs :
  (forall n v a b, ~ In n (map fst fs) -> d (JObj (a ++ (n, v) :: b)%list) = d (JObj (a ++ b)%list)) ->
  (forall n s a b j j', In (n, s) fs -> grown s j j' -> d (JObj (a ++ (n, j') :: b)%list) = d (JObj (a ++ (n, j) :: b)%list)) ->
  ignores d (Struct fs).
Proof.
  intros H K j j' G. remember (Struct fs) as s eqn:E. revert E. induction G; intros E; try discriminate.
  - reflexivity.
  - rewrite (IHG2 E). exact (IHG1 E).
  - injection E as ->. now apply H.
  - injection E as ->. eapply K; eassumption.
Qed.

Lemma ignores_closed {A} (d : json -> option A) fs :
  (forall n s a b j j', In (n, s) fs -> grown s j j' -> d (JObj (a ++ (n, j') :: b)%list) = d (JObj (a ++ (n, j) :: b)%list)) ->
  ignores d (Closed fs).
Proof.
  intros K j j' G. remember (Closed fs) as s eqn:E. revert E. induction G; intros E; try discriminate.
  - reflexivity.
  - rewrite (IHG2 E). exact (IHG1 E).
  - injection E as ->. eapply K; eassumption.
Qed.

Lemma all_some_middle {A B} (f : A -> option B) a b x y : f x = f y -> all_some f (a ++ x :: b) = all_some f (a ++ y :: b).
Proof.
  intros E. induction a as [|z a IH]; cbn [app all_some]; [now rewrite E|]. rewrite IH. reflexivity.
Qed.

Lemma ignores_entries {K A} (k : string -> option K) (d : json -> option A) s : ignores d s -> ignores (d_entries k d) (Named s).
Proof.
  intros I j j' G. remember (Named s) as s' eqn:E. revert E. induction G; intros E; try discriminate.
  - reflexivity.
  - rewrite (IHG2 E). exact (IHG1 E).
  - injection E as ->. cbn [d_entries]. apply all_some_middle. cbn [fst snd]. rewrite (I _ _ G). reflexivity.
Qed.

Lemma ignores_map {A} k (d : json -> option A) s : ignores d s -> ignores (d_map k d) (Named s).
Proof. intros I j j' G. unfold d_map. now rewrite (ignores_entries k d s I _ _ G). Qed.

Lemma ignores_map_unique {A} k (d : json -> option A) s : ignores d s -> ignores (d_map_unique k d) (Named s).
Proof. intros I j j' G. unfold d_map_unique. now rewrite (ignores_entries k d s I _ _ G). Qed.

Lemma ignores_vec {A} (d : json -> option A) s : ignores d s -> ignores (d_vec d) (Sequence s).
Proof.
  intros I j j' G. remember (Sequence s) as s' eqn:E. revert E. induction G; intros E; try discriminate.
  - reflexivity.
  - rewrite (IHG2 E). exact (IHG1 E).
  - injection E as ->. cbn [d_vec]. apply all_some_middle. exact (I _ _ G).
Qed.

Lemma grown_null s j j' : grown s j j' -> (j = JNull <-> j' = JNull).
Proof. intros G. induction G; try (split; discriminate); [reflexivity|]. now rewrite IHG1. Qed.

Lemma ignores_opt {A} (d : json -> option A) s : ignores d s -> ignores (d_opt d) s.
Proof.
  intros I j j' G. apply grown_null in G as N. apply I in G. unfold d_opt. rewrite G.
  destruct j, j'; try reflexivity; exfalso; intuition discriminate.
Qed.

(** ** The fields of a struct *)

Lemma filter_length_app (n : string) (a b : list string) :
  length (filter (String.eqb n) (a ++ b)) = length (filter (String.eqb n) a) + length (filter (String.eqb n) b).
Proof. now rewrite filter_app, app_length. Qed.

Lemma lookup_middle_other {V} (x n : string) (v : V) a b : x <> n -> lookup x (a ++ (n, v) :: b) = lookup x (a ++ b).
Proof.
  intros N. rewrite !lookup_app. cbn [lookup]. destruct (eqb x n) eqn:Q; [|reflexivity]. apply eqb_eq in Q. contradiction.
Qed.

Lemma fields_unknown names o n v a b : ~ In n names ->
  d_fields names false o (JObj (a ++ (n, v) :: b)) = d_fields names false o (JObj (a ++ b)).
Proof.
  intros N. cbn [d_fields].
  assert (L : map (fun x => lookup x (a ++ (n, v) :: b)) names = map (fun x => lookup x (a ++ b)) names).
  { apply map_ext_in. intros x I. apply lookup_middle_other. intros ->. contradiction. }
  rewrite L. cbn [negb orb]. rewrite !andb_true_r.
  assert (F : forallb (fun x => Nat.leb (length (filter (String.eqb x) (map fst (a ++ (n, v) :: b)))) 1) names =
              forallb (fun x => Nat.leb (length (filter (String.eqb x) (map fst (a ++ b)))) 1) names).
  { clear L. induction names as [|x names IH]; [reflexivity|]. cbn [forallb]. rewrite IH by (intros I; apply N; now right).
    f_equal. rewrite !map_app. cbn [map fst]. rewrite !filter_app. cbn [filter].
    destruct (String.eqb_spec x n) as [-> |_]; [exfalso; apply N; now left|reflexivity]. }
  now rewrite F.
Qed.

(** Two readings of the fields that differ in one field only. *)
Lemma fields_known names deny o n j j' a b :
  In n names ->
  (d_fields names deny o (JObj (a ++ (n, j) :: b)) = None /\ d_fields names deny o (JObj (a ++ (n, j') :: b)) = None) \/
  exists f f', d_fields names deny o (JObj (a ++ (n, j) :: b)) = Some (map f names) /\
               d_fields names deny o (JObj (a ++ (n, j') :: b)) = Some (map f' names) /\
               f n = Some j /\ f' n = Some j' /\ forall x, x <> n -> f' x = f x.
Proof.
  intros I. cbn [d_fields]. rewrite !map_app. cbn [map fst].
  match goal with |- ((if ?c then _ else _) = _ /\ _) \/ _ => destruct c eqn:X end; [right|left; split; reflexivity].
  exists (fun x => lookup x (a ++ (n, j) :: b)), (fun x => lookup x (a ++ (n, j') :: b)). do 2 (split; [reflexivity|]).
  assert (NA : lookup n a = None).
  { destruct (lookup n a) as [v|] eqn:Lk; [|reflexivity]. exfalso. apply andb_prop in X as [X _].
    rewrite forallb_forall in X. specialize (X _ I). apply Nat.leb_le in X. rewrite filter_length_app in X. cbn [filter] in X.
    rewrite String.eqb_refl in X. cbn [length] in X. apply lookup_In in Lk. apply (in_map fst) in Lk. cbn [fst] in Lk.
    assert (Y : In n (filter (String.eqb n) (map fst a))) by (apply filter_In; split; [exact Lk|apply String.eqb_refl]).
    destruct (filter (String.eqb n) (map fst a)); [contradiction|]. cbn [length] in X. lia. }
  split; [|split].
  - rewrite lookup_app, NA. cbn [lookup]. now rewrite eqb_refl.
  - rewrite lookup_app, NA. cbn [lookup]. now rewrite eqb_refl.
  - intros x N. now rewrite !lookup_middle_other by exact N.
Qed.

Lemma required_ignores {A} (d : json -> option A) s j j' : ignores d s -> grown s j j' ->
  d_required d (Some j') = d_required d (Some j).
Proof. intros I G. exact (I _ _ G). Qed.

Lemma optional_ignores {A} (d : json -> option A) s j j' : ignores d s -> grown s j j' ->
  d_optional d (Some j') = d_optional d (Some j).
Proof. intros I G. exact (ignores_opt d s I _ _ G). Qed.

(** ** The structs *)

Ltac below :=
  match goal with
  | I : In (?n, ?s) _, G : grown ?s ?j ?j' |- context [d_fields ?names ?deny ?o (JObj (?a ++ (?n, ?j') :: ?b))] =>
      cbn [In leaves map app] in I;
      repeat (destruct I as [I | I]; [injection I as <- <- |]); [..|contradiction I];
      (match goal with |- context [d_fields names deny o (JObj (_ ++ (?m, j') :: _))] =>
         let F := fresh "F" in let F' := fresh "F'" in let N := fresh "N" in let N' := fresh "N'" in let O := fresh "O" in
         let f := fresh "f" in let f' := fresh "f'" in
         destruct (fields_known names deny o m j j' a b) as [[F F'] | (f & f' & F & F' & N & N' & O)];
           [cbn [In]; intuition reflexivity | rewrite F, F'; reflexivity
           |rewrite F, F'; cbn [map]; rewrite N, N'; rewrite ?O by discriminate]
       end)
  end.

Ltac struct := apply ignores_struct;
  [intros n v a b N; cbn [leaves map fst app] in N; rewrite fields_unknown by (cbn [In] in N |- *; tauto); reflexivity
  |intros n s a b j j' I G].

Lemma grown_leaf j j' : grown Leaf j j' -> j' = j.
Proof.
  intros G. remember Leaf as s eqn:E. induction G; try discriminate; [reflexivity|].
  rewrite (IHG2 E). exact (IHG1 E).
Qed.

Ltac leaf := match goal with G : grown Leaf _ _ |- _ => apply grown_leaf in G; subst; reflexivity end.
Ltac part L := match goal with
  | G : grown _ ?j ?j' |- context [d_required ?d (Some ?j')] => now rewrite (required_ignores d _ j j' L G)
  | G : grown _ ?j ?j' |- context [d_optional ?d (Some ?j')] => now rewrite (optional_ignores d _ j j' L G)
  end.

Lemma ignores_key_value : ignores d_key_value (Struct (leaves ["public"])).
Proof. unfold d_key_value. struct. below; leaf. Qed.

Lemma ignores_shim_key : ignores d_shim_key key_shape.
Proof. unfold d_shim_key, key_shape. struct. below; [leaf..|part ignores_key_value]. Qed.

Lemma ignores_key C : ignores (d_key C) key_shape.
Proof. intros j j' G. unfold d_key. now rewrite (ignores_shim_key _ _ G). Qed.

Lemma ignores_meta_desc : ignores d_meta_desc description_shape.
Proof. unfold d_meta_desc, description_shape. struct. below; leaf. Qed.

Lemma ignores_target_desc : ignores d_target_desc target_shape.
Proof. unfold d_target_desc, target_shape. struct. below; leaf. Qed.

Lemma ignores_role_def : ignores d_role_def role_shape.
Proof. unfold d_role_def, role_shape. struct. below; leaf. Qed.

Lemma ignores_delegation : ignores d_delegation delegation_shape.
Proof. unfold d_delegation, delegation_shape. struct. below; leaf. Qed.

Lemma ignores_delegations C : ignores (d_delegations C) delegations_shape.
Proof.
  unfold d_delegations, delegations_shape. struct. below.
  - part (ignores_map_unique key_id_of_string _ _ (ignores_key C)).
  - part (ignores_vec _ _ ignores_delegation).
Qed.

Lemma ignores_role_defs : ignores d_role_defs (Struct [("root", role_shape); ("snapshot", role_shape);
                                                       ("targets", role_shape); ("timestamp", role_shape)]).
Proof. unfold d_role_defs. struct. below; part ignores_role_def. Qed.

Lemma ignores_root C : ignores (d_root C) (metadata_shape Root).
Proof.
  unfold d_root, metadata_shape. struct. below; [leaf..| |].
  - part (ignores_map_unique key_id_of_string _ _ (ignores_key C)).
  - part ignores_role_defs.
Qed.

Lemma ignores_targets C : ignores (d_targets C) (metadata_shape Targets).
Proof.
  unfold d_targets, metadata_shape. struct. below; [leaf..| |].
  - part (ignores_map path_of_string _ _ ignores_target_desc).
  - part (ignores_delegations C).
Qed.

Lemma ignores_timestamp_meta : ignores d_timestamp_meta (Closed [("snapshot.json", description_shape)]).
Proof. unfold d_timestamp_meta. apply ignores_closed. intros n s a b j j' I G. below. part ignores_meta_desc. Qed.

Lemma ignores_timestamp : ignores d_timestamp (metadata_shape Timestamp).
Proof. unfold d_timestamp, metadata_shape. struct. below; [leaf..|part ignores_timestamp_meta]. Qed.

Lemma ignores_snapshot : ignores d_snapshot (metadata_shape Snapshot).
Proof.
  unfold d_snapshot, metadata_shape. struct. below; [leaf..|part (ignores_map_unique Some _ _ ignores_meta_desc)].
Qed.

Lemma ignores_metadata C r : ignores (d_metadata C r) (metadata_shape r).
Proof.
  destruct r; cbn [d_metadata]; auto using ignores_root, ignores_snapshot, ignores_targets, ignores_timestamp.
Qed.

Lemma ignores_signature : ignores d_signature (Struct (leaves ["keyid"; "sig"])).
Proof. unfold d_signature. struct. below; leaf. Qed.

Lemma ignores_signed : ignores d_signed envelope_shape.
Proof. unfold d_signed, envelope_shape. struct. below; [part (ignores_vec _ _ ignores_signature)|leaf]. Qed.

Lemma closed_refuses names o m n v : In (n, v) m -> ~ In n names -> d_fields names true o (JObj m) = None.
Proof.
  intros I N. cbn [d_fields]. match goal with |- (if ?c then _ else _) = _ => destruct c eqn:X end; [|reflexivity].
  exfalso. apply andb_prop in X as [_ X]. cbn [negb orb] in X. rewrite forallb_forall in X.
  apply (in_map fst) in I. apply X in I. apply mem_In in I. contradiction.
Qed.
