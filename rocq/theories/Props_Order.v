(** * C112: the order of hash maps never shows *)
From Coq Require Import String Ascii List NArith ZArith Bool Lia Permutation.
From Verif Require Import Base BaseFacts JsonValue JsonText SpecJson Metadata Verify Tuf Reader Repo Client Codec Serde Keys Shims SpecKeys SpecMeta SerdeProofs ShimsProofs
     SpecOrder OrderProofs OrderClientProofs KeyToy Toy JsonToy.
Import ListNotations.
Open Scope nat_scope.
Open Scope string_scope.
Open Scope list_scope.

(** Any sequence of calls of the methods of [Tuf], each with any orders: the same results,
    and metadata that differ in orders only. *)
Theorem C112_methods :
  forall (l l' : list (env * op)), Forall2 (fun x x' => same_env (fst x) (fst x') /\ snd x = snd x') l l' ->
  forall t t', same_tuf t t' ->
  same_tuf (fst (calls t l)) (fst (calls t' l')) /\ snd (calls t l) = snd (calls t' l') /\
  forall c target, opt_rel (res_rel same_target) (target_description (fst (calls t l)) c target) (target_description (fst (calls t' l')) c target).
Proof.
  intros l l' F.
  assert (G : forall t t', same_tuf t t' -> same_tuf (fst (calls t l)) (fst (calls t' l')) /\ snd (calls t l) = snd (calls t' l')).
  { induction F as [|[E o] [E' o'] l l' [SE Q] _ IH]; intros t t' T; [now split|]. cbn [fst snd] in SE, Q. subst o'. cbn [calls].
    destruct (step_same E E' SE t t' o T) as [A B]. destruct (step E t o) as [x r], (step E' t' o) as [x' r']. cbn [fst snd] in A, B. apply res_eq in B as <-.
    destruct (IH x x' A) as [C D]. destruct (calls x l), (calls x' l'). cbn [fst snd] in *. split; congruence. }
  intros t t' T. destruct (G t t' T) as [A B]. split; [exact A|]. split; [exact B|]. intros c target. now apply description_same.
Qed.
Print Assumptions C112_methods.

(** Both starting points. *)
Theorem C112_starts :
  forall (E E' : env), same_env E E' ->
  (forall raw, res_rel same_tuf (from_trusted_root E raw) (from_trusted_root E' raw)) /\
  (forall raw th keys, res_rel same_tuf (from_root_with_trusted_keys E raw th keys) (from_root_with_trusted_keys E' raw th keys)).
Proof. intros E E' S. split; intros; [now apply from_root_same|now apply from_keys_same]. Qed.
Print Assumptions C112_starts.

(** Clients: every constructor and every call makes the same requests, stores and writes the
    same bytes, and returns the same; and so do whole lives of clients. *)
Theorem C112_clients :
  forall (E E' : env) (cfg : config) (fuel : nat), same_env E E' ->
  (forall c, same_behaviour (res_rel same_tuf) (construct E cfg fuel c) (construct E' cfg fuel c)) /\
  (forall t t' k, same_tuf t t' -> same_behaviour (same_outcome eq) (call_prog E cfg fuel t k) (call_prog E' cfg fuel t' k)) /\
  (forall t t', same_tuf t t' -> same_behaviour (same_outcome eq) (update E cfg fuel t) (update E' cfg fuel t')) /\
  (forall t t' target, same_tuf t t' ->
     same_behaviour (same_outcome same_target) (fetch_target_description E cfg fuel t target) (fetch_target_description E' cfg fuel t' target)) /\
  (forall c tr t, life E cfg fuel c tr t -> exists tr' t', life E' cfg fuel c tr' t' /\ Forall2 same_event tr tr' /\ same_tuf t t') /\
  (forall c tr' t', life E' cfg fuel c tr' t' -> exists tr t, life E cfg fuel c tr t /\ Forall2 same_event tr tr' /\ same_tuf t t').
Proof.
  intros E E' cfg fuel S. split; [intros c; apply m_behaves; now apply construct_same|].
  split; [intros; apply m_behaves; now apply call_same|]. split; [intros; apply m_behaves; now apply update_same|].
  split; [intros; apply m_behaves; now apply describe_same|].
  split; intros c; [exact (proj1 (life_same E E' cfg S fuel c))|exact (proj2 (life_same E E' cfg S fuel c))].
Qed.
Print Assumptions C112_clients.

(** ** In JSON *)
Lemma self_map {K V} `{EqDec K} (R : V -> V -> Prop) (m : list (K * V)) : NoDup (map fst m) -> (forall k v, In (k, v) m -> R v v) -> same_map R m m.
Proof. intros N F. split; [exact N|]. split; [exact N|]. intros k. destruct (lookup k m) eqn:L; [|exact I]. apply lookup_In in L. now apply (F k). Qed.
Lemma hashes_self h : wf_hashes h -> same_map eq h h.
Proof. intros W. apply self_map; [|reflexivity]. destruct W; cbn; repeat constructor; cbn; intuition discriminate. Qed.
Lemma keys_self C k : wf_keys C k -> same_keys k k.
Proof. intros [I _]. split; [|now left]. apply self_map; [now apply increasing_NoDup|reflexivity]. Qed.
Lemma read_self C r m : wf_metadata C r m -> same_metadata r m m.
Proof.
  assert (Ds : forall d, wf_desc d -> same_desc d d) by (intros d (_ & _ & W); repeat (split; [reflexivity|]); now apply hashes_self).
  destruct r; cbn [wf_metadata same_metadata].
  - intros (_ & _ & K & _). repeat (split; [reflexivity|]). split; [eapply keys_self, K|]. now repeat split.
  - intros (_ & _ & I & F). repeat (split; [reflexivity|]). apply self_map.
    + apply increasing_NoDup in I. clear F. induction (sm_meta m) as [|[k d] l IH]; cbn in *; constructor; inversion I; subst; [|now apply IH].
      intros X. apply H1. apply in_map_iff in X as (y & Q & X). apply in_map_iff. exists y. now rewrite Q.
    + intros k v X. rewrite Forall_forall in F. apply Ds, (F _ X).
  - intros (_ & _ & I & F & D). repeat (split; [reflexivity|]). split.
    + apply self_map; [now apply increasing_NoDup|]. intros k v X. rewrite Forall_forall in F. destruct (F _ X) as [_ (_ & W & Cu)]. cbn in W, Cu.
      split; [reflexivity|]. split; [now apply hashes_self|]. destruct (td_custom v) as [c|]; [|exact Logic.I].
      apply self_map; [apply increasing_NoDup, Cu|reflexivity].
    + destruct (tg_delegations m) as [d|]; [|exact Logic.I]. destruct D as (_ & K & _). split; [eapply keys_self, K|].
      induction (dgs_roles d); constructor; [|assumption]. repeat split; auto.
  - intros (_ & _ & W). repeat (split; [reflexivity|]). now apply Ds.
Qed.

(** Reading JSON, with any order for signatures, and any orders given to the maps of what
    has been read. *)
Theorem C112_json :
  forall (C : crypto) (o o' : hash_order) f g, shuffles f -> shuffles g ->
  same_env (mkEnv C o (json_interchange C)) (mkEnv C o' (json_interchange C)) /\
  same_env (mkEnv C o (json_interchange C)) (mkEnv C o' (shuffled (json_interchange C) f g)).
Proof.
  intros C o o' f g Sf Sg.
  assert (G : forall r j, res_rel (same_metadata r) (decoded (d_metadata C r j)) (decoded (d_metadata C r j))).
  { intros r j. destruct (d_metadata C r j) as [m|] eqn:D; [|reflexivity]. apply read_self with C. eapply metadata_wf, D. }
  split.
  - split; [reflexivity|]. exists eq. cbn [e_ic json_interchange ic_envelope ic_canonicalize ic_deserialize ic_from_slice ic_raw]. split; [|split].
    + intros raw. destruct (json_from_slice d_signed raw); [now split|reflexivity].
    + intros x ? <-. split; [reflexivity|]. intros r. apply G.
    + intros r b. unfold json_from_slice, rbind. destruct (parse b); [apply G|reflexivity].
  - split; [reflexivity|]. exists eq. cbn [e_ic shuffled json_interchange ic_envelope ic_canonicalize ic_deserialize ic_from_slice ic_raw]. split; [|split].
    + intros raw. destruct (json_from_slice d_signed raw); [now split|reflexivity].
    + intros x ? <-. split; [reflexivity|]. intros r. specialize (G r x). unfold json_deserialize. destruct (decoded _) as [m|e]; [|reflexivity].
      now apply Sg.
    + intros r b. unfold json_from_slice, rbind. destruct (parse b) as [j|e]; [|reflexivity]. specialize (G r j). destruct (decoded _) as [m|e]; [|reflexivity].
      now apply Sf.
Qed.
Print Assumptions C112_json.

(** ** A reader that turns all maps round *)
Definition turn {K V} (h : V -> V) (m : list (K * V)) : list (K * V) := rev (map (fun '(k, v) => (k, h v)) m).
Definition turn_keys (m : list (string * public_key)) : list (string * public_key) :=
  if no_repeats (map (fun x => pk_id (snd x)) m) then rev m else m.
Definition turn_desc (d : meta_desc) : meta_desc := mkMetaDesc (md_version d) (md_length d) (rev (md_hashes d)).
Definition turn_target (d : target_desc) : target_desc := mkTargetDesc (td_length d) (rev (td_hashes d)) (td_custom d).
Definition turn_delegation (d : delegation) : delegation :=
  mkDelegation (dg_role d) (dg_terminating d) (dg_threshold d) (rev (dg_key_ids d)) (rev (dg_paths d)).
Definition turn_all (r : role) : metadata_of r -> metadata_of r :=
  match r with
  | Root => fun m => mkRoot (rm_version m) (rm_expires m) (rm_consistent m) (turn_keys (rm_keys m)) (rm_root m) (rm_snapshot m) (rm_targets m) (rm_timestamp m)
  | Snapshot => fun m => mkSnapshot (sm_version m) (sm_expires m) (turn turn_desc (sm_meta m))
  | Targets => fun m => mkTargets (tg_version m) (tg_expires m) (turn turn_target (tg_targets m))
      match tg_delegations m with
      | None => None
      | Some d => Some (mkDelegations (turn_keys (dgs_keys d)) (map turn_delegation (dgs_roles d)))
      end
  | Timestamp => fun m => mkTimestamp (tm_version m) (tm_expires m) (turn_desc (tm_snapshot m))
  end.

Lemma turn_map {K V} `{EqDec K} (R : V -> V -> Prop) h (m : list (K * V)) : same_map R m m -> (forall v, R v v -> R v (h v)) -> same_map R m (turn h m).
Proof.
  intros (N & _ & L) F. unfold turn.
  assert (Q : map fst (map (fun '(k, v) => (k, h v)) m) = map fst m) by (rewrite map_map; apply map_ext; now intros []).
  split; [exact N|]. split; [rewrite map_rev, Q; now apply NoDup_rev|]. intros k. specialize (L k).
  destruct (lookup k m) as [v|] eqn:X.
  - apply lookup_In in X. assert (Y : In (k, h v) (rev (map (fun '(k, v) => (k, h v)) m))).
    { apply -> in_rev. apply in_map_iff. now exists (k, v). }
    assert (Z : lookup k (rev (map (fun (x : K * V) => let (k, v) := x in (k, h v)) m)) = Some (h v)).
    { apply In_lookup; [|exact Y]. unfold keys_of. rewrite map_rev, Q. now apply NoDup_rev. }
    rewrite Z. now apply F.
  - destruct (lookup k (rev _)) as [v|] eqn:Y; [|exact I]. apply lookup_In_key in Y. unfold keys_of in Y. rewrite map_rev, Q in Y. apply in_rev in Y. now apply lookup_None in X.
Qed.
Lemma rev_map_same {K V} `{EqDec K} (R : V -> V -> Prop) (m : list (K * V)) : same_map R m m -> same_map R m (rev m).
Proof.
  intros M. replace (rev m) with (turn (fun v => v) m); [now apply turn_map|]. unfold turn. f_equal. rewrite <- (map_id m) at 2. apply map_ext. now intros [].
Qed.
Lemma turn_keys_same m : same_keys m m -> same_keys m (turn_keys m).
Proof.
  intros [M _]. unfold turn_keys. destruct (no_repeats _) eqn:N; [|split; [exact M|now left]]. apply no_repeats_NoDup in N.
  split; [now apply rev_map_same|]. right. intros i j k k' I J Q. clear M. revert N I J. induction m as [|[a b] m IH]; cbn; [contradiction|].
  intros N. inversion N as [|? ? X Y]; subst. intros [A|A] [B|B]; [congruence| | |now apply IH].
  - injection A as -> ->. elim X. rewrite Q. apply in_map_iff. now exists (j, k').
  - injection B as -> ->. elim X. rewrite <- Q. apply in_map_iff. now exists (i, k).
Qed.
Lemma turn_all_shuffles A : shuffles (fun r (_ : A) => turn_all r).
Proof.
  assert (D : forall d, same_desc d d -> same_desc d (turn_desc d)) by (intros d (P & Q & M); repeat (split; [assumption|]); now apply rev_map_same).
  assert (T : forall d, same_target d d -> same_target d (turn_target d)) by (intros d (P & M & Q); split; [exact P|split; [now apply rev_map_same|exact Q]]).
  assert (Rv : forall X (l : list X), same_set l (rev l)) by (intros X l x; apply in_rev).
  intros r _ m. destruct r; cbn [same_metadata turn_all].
  - intros (P1 & P2 & P3 & K & P). repeat (split; [assumption|]). split; [now apply turn_keys_same|exact P].
  - intros (P1 & P2 & M). repeat (split; [assumption|]). apply turn_map; auto.
  - intros (P1 & P2 & M & G). repeat (split; [assumption|]). split; [now apply turn_map|]. cbn. destruct (tg_delegations m) as [d|]; [|exact I].
    destruct G as [K _]. split; [now apply turn_keys_same|]. cbn. induction (dgs_roles d); constructor; [|assumption]. now repeat split; try apply Rv.
  - intros (P1 & P2 & Q). repeat (split; [assumption|]). now apply D.
Qed.

Definition turned_env : env :=
  mkEnv checksums id_order (shuffled (json_interchange checksums) (fun r _ => turn_all r) (fun r _ => turn_all r)).
Definition at_start : clock := mkClock 0 0 0 0 0 (fun _ => 0%Z).
Definition jfiles : list op :=
  [OpTimestamp at_start (publish_metadata Timestamp [key_t] jtimestamp); OpSnapshot at_start (publish_metadata Snapshot [key_s] jsnapshot);
   OpTargets at_start (publish_metadata Targets [key_r] jtargets); OpTargets at_start (publish_metadata Targets [key_g] jtargets)].
Definition started (E : env) : tuf :=
  match from_trusted_root E (publish_metadata Root [key_r] jroot) with Ok t => t | Err _ => tuf_of_root jroot end.
Lemma started_same E E' : same_env E E' -> is_ok (from_trusted_root E (publish_metadata Root [key_r] jroot)) = true -> same_tuf (started E) (started E').
Proof.
  intros S. unfold started. generalize (publish_metadata Root [key_r] jroot) as b. intros b. generalize (tuf_of_root jroot) as d. intros d Q.
  destruct (C112_starts E E' S) as [G _]. specialize (G b). destruct (from_trusted_root E b), (from_trusted_root E' b); cbn in *; discriminate || contradiction || exact G.
Qed.
Definition names (t : tuf) : list string := map fst (rm_keys (t_root t)).
(** With maps as they are and with all maps turned round: the metadata are not the same, all
    results are. *)
Example C112_case :
  same_env json_env turned_env /\ same_tuf (started json_env) (started turned_env) /\
  names (started json_env) = rev (names (started turned_env)) /\ (if list_eq_dec string_dec (names (started json_env)) (names (started turned_env)) then true else false) = false /\
  snd (calls (started json_env) (map (pair json_env) jfiles)) = [Ok true; Ok true; Err VerificationFailure; Ok true] /\
  snd (calls (started turned_env) (map (pair turned_env) jfiles)) = [Ok true; Ok true; Err VerificationFailure; Ok true].
Proof.
  assert (S : same_env json_env turned_env) by (apply C112_json; apply turn_all_shuffles).
  split; [exact S|]. split.
  { apply started_same; [exact S|vm_compute; reflexivity]. }
  repeat match goal with |- _ /\ _ => split end; vm_compute; reflexivity.
Qed.

(** ** Different keys with one id

    Keys of delegations may stand under any id.  If SHA-256 had a collision between two of
    them, whoever comes last in the order of the map would count. *)
Definition flat : crypto := mkCrypto (ring_verify checksums) (fun _ _ => "0123456789abcdef0123456789abcdef").
Definition flat_key (c : ascii) : public_key := some_key (from_ed25519 flat (material c)).
Definition flat_id : string := pk_id (flat_key "A").
Definition other_id : string := "ffffffffffffffffffffffffffffffffffffffffffffffffffffffffffffffff".
Definition flat_role : role_def := mkRoleDef 1 [flat_id].
Definition flat_root : root_metadata := mkRoot 1 new_year false [(flat_id, flat_key "A")] flat_role flat_role flat_role flat_role.
Definition flat_timestamp : timestamp_metadata := mkTimestamp 1 new_year (desc_of 1 "").
Definition flat_snapshot : snapshot_metadata := mkSnapshot 1 new_year [("alice", desc_of 1 ""); ("targets", desc_of 1 "")].
Definition flat_targets : targets_metadata :=
  mkTargets 1 new_year [] (Some (mkDelegations [(flat_id, flat_key "B"); (other_id, flat_key "C")] [mkDelegation "alice" false 1 [flat_id; other_id] ["a/"]])).
Definition flat_alice : targets_metadata := mkTargets 1 new_year [] None.
Definition flat_calls : list op :=
  [OpTimestamp at_start (publish_metadata Timestamp [flat_key "A"] flat_timestamp); OpSnapshot at_start (publish_metadata Snapshot [flat_key "A"] flat_snapshot);
   OpTargets at_start (publish_metadata Targets [flat_key "A"] flat_targets);
   OpDelegation at_start "targets" "alice" (publish_metadata Targets [flat_key "C"] flat_alice)].
Definition flat_env : env := mkEnv flat id_order (json_interchange flat).
(** The keys of delegations in the opposite order, nothing else. *)
Definition turn_delegation_keys (r : role) : metadata_of r -> metadata_of r :=
  match r with
  | Targets => fun m => mkTargets (tg_version m) (tg_expires m) (tg_targets m)
      match tg_delegations m with None => None | Some d => Some (mkDelegations (rev (dgs_keys d)) (dgs_roles d)) end
  | _ => fun m => m
  end.
Definition flat_turned : env :=
  mkEnv flat id_order (shuffled (json_interchange flat) (fun r _ => turn_delegation_keys r) (fun r _ => turn_delegation_keys r)).
Theorem C112_colliding_ids_refuted :
  exists (root : bytes) (t : tuf) (ops : list op),
  from_trusted_root flat_env root = Ok t /\ from_trusted_root flat_turned root = Ok t /\
  snd (calls t (map (pair flat_env) ops)) = [Ok true; Ok true; Ok true; Ok true] /\
  snd (calls t (map (pair flat_turned) ops)) = [Ok true; Ok true; Ok true; Err VerificationFailure].
Proof.
  exists (publish_metadata Root [flat_key "A"] flat_root), (tuf_of_root flat_root), flat_calls.
  repeat match goal with |- _ /\ _ => split end; vm_compute; reflexivity.
Qed.
Print Assumptions C112_colliding_ids_refuted.
