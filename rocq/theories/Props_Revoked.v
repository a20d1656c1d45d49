(** * C117: revoked keys have no say *)
From Coq Require Import String List NArith ZArith Bool Lia.
From Verif Require Import Base BaseFacts Metadata Verify Paths Tuf SpecVerify SpecTuf VerifyProofs TufProofs
     Reader SpecReader Repo Client SpecClient SpecHonest ClientProofs
     Toy ClientToy Props_Client Props_Honest SpecAttack Props_Attack SpecCustody SpecRevoked RevokedProofs.
Import ListNotations.
Open Scope string_scope.
Open Scope list_scope.
Open Scope N_scope.

(** ** The theorems *)

Lemma by_worlds K E E' : differ_in K E E' ->
  (forall k msg sg, ~ K k -> ring_verify (e_crypto E) (pk_scheme k) (pk_value k) msg sg = ring_verify (e_crypto E') (pk_scheme k) (pk_value k) msg sg) /\
  (forall alg b, ring_digest (e_crypto E) alg b = ring_digest (e_crypto E') alg b) /\
  E' = mkEnv (e_crypto E') (e_order E) (e_ic E).
Proof. intros [S D O I]. destruct E as [C o ic], E' as [C' o' ic']; cbn in *. subst. auto. Qed.

(** Once keys are listed neither in the trusted metadata nor in the files that come in, it
    makes no difference what is signed with them: every call gives the same result and the
    same trusted metadata, whatever their signatures are worth. *)
Theorem C117_revoked_keys_have_no_say :
  forall (K : public_key -> Prop) (E E' : env) (t : tuf) (ops : list op),
  differ_in K E E' -> trusted_without K t -> (forall o, In o ops -> file_without E K (file_of o)) ->
  run E t ops = run E' t ops /\ trusted_without K (run E t ops) /\
  forall o, file_without E K (file_of o) -> step E (run E t ops) o = step E' (run E t ops) o.
Proof.
  intros K E E' t ops D F H. destruct (by_worlds _ _ _ D) as (S & _ & ->).
  destruct (run_same K E (e_crypto E') S ops t F H) as [R G]. repeat split; try apply G; [exact R|].
  intros o Ho. exact (proj1 (step_same K E (e_crypto E') S _ o G Ho)).
Qed.
Print Assumptions C117_revoked_keys_have_no_say.

(** The same for clients, whatever the repositories do: what can happen in one world can
    happen in the other, event by event, with the same results. *)
Theorem C117_clients_do_not_care :
  forall (K : public_key -> Prop) (E E' : env) (cfg : config) (fuel : nat) (t t' : tuf) (tr : list event),
  differ_in K E E' -> trusted_without K t -> used E cfg fuel t tr t' -> (forall raw, fetched tr raw -> file_without E K raw) ->
  used E' cfg fuel t tr t' /\ trusted_without K t' /\
  forall k tr' q, exec (call_prog E cfg fuel t' k) tr' q -> (forall raw, fetched tr' raw -> file_without E K raw) ->
    exists q', exec (call_prog E' cfg fuel t' k) tr' q' /\ (forall x, q = Ret x -> q' = Ret x) /\ (q = Panic -> q' = Panic).
Proof.
  intros K E E' cfg fuel t t' tr D F U. destruct (by_worlds _ _ _ D) as (Sg & Dg & ->).
  assert (L : forall a b raw, fetched a raw \/ fetched b raw -> fetched (a ++ b) raw).
  { intros a b raw [X|X]; destruct X as (s & p & v & m & h & ans & I & A); exists s, p, v, m, h, ans; (split; [apply in_or_app; auto|exact A]). }
  assert (Ca : forall t1 k tr' q, trusted_without K t1 -> exec (call_prog E cfg fuel t1 k) tr' q -> (forall raw, fetched tr' raw -> file_without E K raw) ->
    trusted_without K (tuf_after t1 tr') /\
    exists q', exec (call_prog (mkEnv (e_crypto E') (e_order E) (e_ic E)) cfg fuel t1 k) tr' q' /\ similar K E (fst_free K) q q').
  { intros t1 k tr' q F1 X H1. refine (s_exec K E _ _ tr' q X _ t1 _ F1 H1). exact (call_similar K E (e_crypto E') Sg Dg cfg fuel t1 k F1). }
  assert (G : (forall raw, fetched tr raw -> file_without E K raw) ->
    used (mkEnv (e_crypto E') (e_order E) (e_ic E)) cfg fuel t tr t' /\ trusted_without K t').
  { induction U as [|tr t1 k tr' q U IH X]; intros H; [split; [constructor|exact F]|].
    destruct IH as [U' F1]; [intros raw R; apply H, L; now left|].
    destruct (Ca t1 k tr' q F1 X) as (F2 & q' & X' & _); [intros raw R; apply H, L; now right|].
    split; [|exact F2]. exact (used_call _ cfg fuel t tr t1 k tr' q' U' X'). }
  intros H. destruct (G H) as [U' F']. split; [exact U'|]. split; [exact F'|]. intros k tr' q X H'.
  destruct (Ca t' k tr' q F' X H') as (_ & q' & X' & M). exists q'. split; [exact X'|].
  split; [intros x Q|intros Q]; subst q; now inversion M.
Qed.
Print Assumptions C117_clients_do_not_care.

(** And that is what revocation brings about: as soon as a root is accepted that no longer
    lists the keys, nothing that is trusted does. *)
Theorem C117_revocation_takes_effect :
  forall (K : public_key -> Prop) (E : env) (t t' : tuf) (raw : bytes),
  update_root E t raw = (t', Ok tt) -> (forall m, content E Root raw m -> root_without K m) -> trusted_without K t'.
Proof.
  intros K E t t' raw U H. unfold update_root, rbind in U.
  destruct (verify_signatures E Root raw _ (root_keys (t_root t))) as [m|e]; [|discriminate].
  destruct (verify_signatures E Root raw _ (root_keys m)) as [m'|e] eqn:Q; [|discriminate].
  destruct (_ <=? _); [discriminate|]. destruct (negb _); [discriminate|]. inversion U; subst.
  split; [|split]; cbn; [|discriminate|discriminate]. apply H. exact (verify_content _ _ _ _ _ _ Q).
Qed.
Print Assumptions C117_revocation_takes_effect.

(** ** A case *)

(** The timestamp key kt has been stolen; root 2 replaces it by kt2.  The thief has signed a
    timestamp with a version so high that no other would be accepted ever after. *)
Definition root2t : root_metadata :=
  mkRoot 2 1000 false (keys_of_names ["kr1"; "kr2"; "ks"; "kg"; "kt2"])
         (rd 2 ["kr1"; "kr2"]) (rd 1 ["ks"]) (rd 1 ["kg"]) (rd 1 ["kt2"]).
Definition ts_thief : timestamp_metadata := mkTimestamp 4000 900 (mdesc 1 "snap1").
Definition v_stock : toydb :=
  [ ("root2", (["kr1"; "kr2"], DRoot root2t)); ("ts1", (["kt2"], DTimestamp ts_one)); ("tsx", (["kt"; "kt2"], DTimestamp ts_thief));
    ("snap1", (["ks"], DSnapshot sn_one)); ("targets1", (["kg"], DTargets ctargets1)) ].
Definition v_honest : list (string * list string) :=
  [ ("root2", ["kr1"; "kr2"]); ("ts1", ["kt2"]); ("snap1", ["ks"]); ("targets1", ["kg"]) ].
Definition Ev (stolen : list string) : env := mkEnv (watched_crypto stolen v_honest) id_order (toy_ic v_stock).
Definition is_kt (k : public_key) : Prop := pk_value k = "kt".

Lemma v_differ : differ_in is_kt (Ev ["kt"]) (Ev []).
Proof.
  split; try reflexivity. intros k msg sg N. cbn. unfold is_kt in N. destruct (String.eqb_spec (pk_value k) "kt") as [Q|_]; [contradiction|].
  reflexivity.
Qed.
Lemma not_kt names : ~ In "kt" names -> not_in is_kt (keys_of_names names).
Proof.
  intros N i k I Q. apply N. unfold keys_of_names in I. apply in_map_iff in I as (n & X & I). inversion X; subst. unfold is_kt in Q. cbn in Q. now rewrite <- Q.
Qed.
Ltac no_kt := apply not_kt; cbn; intuition discriminate.
Lemma v_files st raw : file_without (Ev st) is_kt raw.
Proof.
  assert (G : forall r m, content (Ev st) r raw m -> exists sg d, In (raw, (sg, d)) v_stock /\ toy_decode r d = Ok m).
  { intros r m (sigs & signed & msg & H1 & H2 & H3).
    change ((match lookup raw v_stock with Some (signers, _) => Ok (map (fun s => toy_sign s raw) signers, raw) | None => Err Encoding end) = Ok (sigs, signed)) in H1.
    change (Ok signed = Ok msg) in H2. injection H2 as <-.
    change ((match lookup signed v_stock with Some (_, d) => toy_decode r d | None => Err Encoding end) = Ok m) in H3.
    destruct (lookup raw v_stock) as [[sg d]|] eqn:L; [|discriminate]. injection H1 as _ Q2. rewrite <- Q2 in H3.
    change ((match lookup raw v_stock with Some (_, d) => toy_decode r d | None => Err Encoding end) = Ok m) in H3. rewrite L in H3. exists sg, d. split; [now apply lookup_In|exact H3]. }
  split; intros m Hm; apply G in Hm as (sg & d & L & D);
    repeat (destruct L as [L|L]; [injection L as <- <- <-; cbn [toy_decode] in D; try discriminate; injection D as <-|]); try destruct L.
  - unfold root_without, root2t; cbn [rm_keys]. no_kt.
  - intros ds D. unfold ctargets1 in D. cbn [tg_delegations] in D. injection D as <-. change (not_in is_kt (keys_of_names ["kd"])). no_kt.
Qed.

Definition v_remote (ts : string) : ephemeral :=
  mkEphemeral [(("timestamp", VNone), ts); (("snapshot", VNone), "snap1"); (("targets", VNone), "targets1")] [("top", "hello")].
Definition v_t : tuf := fst (update_root (Ev ["kt"]) (tuf_of_root root1) "root2").
Definition v_updated (st : list string) (ts : string) := drive 50 ephemeral_new (v_remote ts) c50 (call_prog (Ev st) default_config 9 v_t CallUpdate).

Lemma v_free : trusted_without is_kt v_t.
Proof.
  refine (C117_revocation_takes_effect is_kt (Ev ["kt"]) (tuf_of_root root1) v_t "root2" _ (proj1 (v_files ["kt"] "root2"))). reflexivity.
Qed.

(** Before the revocation the thief's timestamp is accepted; afterwards it is not, with the
    key stolen or not, while the new one is; and the client carries on to the targets. *)
Example C117_nonvacuous :
  t_timestamp (run (Ev ["kt"]) (tuf_of_root root1) [OpTimestamp c50 "tsx"]) = Some ts_thief /\
  t_timestamp (run (Ev []) (tuf_of_root root1) [OpTimestamp c50 "tsx"]) = None /\
  t_timestamp (run (Ev ["kt"]) (tuf_of_root root1) [OpRoot "root2"; OpTimestamp c50 "tsx"; OpTimestamp c50 "ts1"]) = Some ts_one /\
  snd (v_updated ["kt"] "tsx") = Ret (v_t, Err VerificationFailure) /\
  snd (v_updated ["kt"] "ts1") = Ret (mkTuf root2t (Some sn_one) (Some ctargets1) (Some ts_one) [], Ok tt).
Proof. split; [|split; [|split; [|split]]]; vm_compute; reflexivity. Qed.

Lemma used_driven E cfg fuel t k n l r c X : X = drive n l r c (call_prog E cfg fuel t k) ->
  used E cfg fuel t (fst (fst X)) (tuf_after t (fst (fst X))).
Proof.
  destruct X as [[tr l'] q]. intros Q. symmetry in Q. apply drive_exec in Q as [Q _]. cbn [fst].
  exact (used_call E cfg fuel t [] t k tr q (used_not E cfg fuel t) Q).
Qed.
Example C117_nonvacuous_theorems : forall ts,
  used (Ev []) default_config 9 v_t (fst (fst (v_updated ["kt"] ts))) (tuf_after v_t (fst (fst (v_updated ["kt"] ts)))).
Proof.
  intros ts. pose proof (used_driven (Ev ["kt"]) default_config 9 v_t CallUpdate 50 ephemeral_new (v_remote ts) c50 _ eq_refl) as U. unfold v_updated.
  revert U. generalize (fst (fst (drive 50 ephemeral_new (v_remote ts) c50 (call_prog (Ev ["kt"]) default_config 9 v_t CallUpdate)))). intros tr U.
  exact (proj1 (C117_clients_do_not_care is_kt (Ev ["kt"]) (Ev []) default_config 9 v_t (tuf_after v_t tr) tr v_differ v_free U (fun raw _ => v_files ["kt"] raw))).
Qed.
Example C117_nonvacuous_runs : forall ops,
  run (Ev ["kt"]) v_t ops = run (Ev []) v_t ops.
Proof.
  intros ops. exact (proj1 (C117_revoked_keys_have_no_say is_kt (Ev ["kt"]) (Ev []) v_t ops v_differ v_free (fun o _ => v_files ["kt"] (file_of o)))).
Qed.

(** Keys that are listed do matter: for the same two worlds and a root that still lists
    the key the conclusion is false. *)
Theorem C117_listed_keys_matter :
  exists (K : public_key -> Prop) (E E' : env) (t : tuf) (o : op),
  differ_in K E E' /\ file_without E K (file_of o) /\ ~ trusted_without K t /\ fst (step E t o) <> fst (step E' t o).
Proof.
  exists is_kt, (Ev ["kt"]), (Ev []), (tuf_of_root root1), (OpTimestamp c50 "tsx"). split; [exact v_differ|]. split; [apply v_files|]. split.
  - intros (H & _). apply (H "kt" (toy_key "kt")); [|reflexivity]. cbn. intuition.
  - intros Q. apply (f_equal t_timestamp) in Q. vm_compute in Q. discriminate.
Qed.
Print Assumptions C117_listed_keys_matter.
