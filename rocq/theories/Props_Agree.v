(** * C115: clients that trust the same versions trust the same metadata *)
From Coq Require Import String List NArith ZArith Bool Lia.
From Verif Require Import Base BaseFacts Metadata Verify Paths Tuf SpecVerify SpecTuf VerifyProofs TufProofs TufHistory
     Reader SpecReader Repo Client SpecClient SpecHonest ClientLogic ClientProofs ClientUpdates ClientHistory ClientTargets
     Toy ClientToy Props_Client Props_Honest SpecAttack AttackProofs Props_Attack SpecAgree AgreeProofs.
Import ListNotations.
Open Scope string_scope.
Open Scope list_scope.
Open Scope N_scope.

(** ** The theorems *)

(** Two clients that began with one root, on machines that order hash maps differently:
    if up to the older of their present roots no root's own keys are divided, then the
    newer of the two is reached from the older one, and roots of one version are equal. *)
Theorem C115_roots_do_not_fork :
  forall (E E' : env) (w : holders) (cfg cfg' : config) (fuel fuel' : nat) (c c' : ctor) (tr tr' : list event)
         (t t' : tuf) (first : root_metadata),
  e_crypto E' = e_crypto E -> e_ic E' = e_ic E -> unforgeable (e_crypto E) w ->
  history E cfg fuel c tr -> trusted_at tr = Some t -> began_with tr first ->
  history E' cfg' fuel' c' tr' -> trusted_at tr' = Some t' -> began_with tr' first ->
  rm_version (t_root t) <= rm_version (t_root t') ->
  (forall n root, root_chain E n first root -> rm_version root < rm_version (t_root t) -> undivided E w root Root) ->
  (exists n, root_chain E n (t_root t) (t_root t')) /\
  (rm_version (t_root t) = rm_version (t_root t') -> t_root t = t_root t').
Proof.
  intros E E' w cfg cfg' fuel fuel' c c' tr tr' t t' first HC HI U H T B H' T' B' L Un.
  destruct (client_chain _ _ _ _ _ _ _ H T B) as (n & Ch).
  destruct (client_chain _ _ _ _ _ _ _ H' T' B') as (n' & Ch').
  apply (chain_other E E' _ _ _ HC HI) in Ch'.
  pose proof (chain_version _ _ _ _ Ch) as V. pose proof (chain_version _ _ _ _ Ch') as V'.
  destruct (chain_prefix _ _ _ _ n Ch') as (r2 & P1 & P2); [lia|].
  assert (X : t_root t = r2).
  { apply (chain_unique E w n first _ _ U); auto. intros k root K Ck. apply (Un k); [exact Ck|].
    pose proof (chain_version _ _ _ _ Ck). lia. }
  split; [exists (n' - n)%nat; rewrite X; exact P2|]. intros Eq. rewrite X.
  replace (n' - n)%nat with 0%nat in P2 by lia. now inversion P2.
Qed.
Print Assumptions C115_roots_do_not_fork.

(** Two clients with the same root have the same document of a role whenever they have the
    same version of it; and if the versions of their timestamps are the same, then so is
    the rest. *)
Theorem C115_same_versions_same_metadata :
  forall (E E' : env) (w : holders) (cfg cfg' : config) (fuel fuel' : nat) (c c' : ctor) (tr tr' : list event) (t t' : tuf),
  e_crypto E' = e_crypto E -> e_ic E' = e_ic E -> unforgeable (e_crypto E) w ->
  history E cfg fuel c tr -> trusted_at tr = Some t ->
  history E' cfg' fuel' c' tr' -> trusted_at tr' = Some t' ->
  t_root t = t_root t' ->
  (forall (r : role) (m m' : metadata_of r), r <> Root -> undivided E w (t_root t) r ->
     trusted_document t r = Some m -> trusted_document t' r = Some m' ->
     document_version r m = document_version r m' -> m = m') /\
  (undivided E w (t_root t) Timestamp -> timestamp_version t = timestamp_version t' ->
   t_timestamp t = t_timestamp t' /\
   (undivided E w (t_root t) Snapshot ->
    forall s s', t_snapshot t = Some s -> t_snapshot t' = Some s' -> s = s' /\
    (undivided E w (t_root t) Targets -> forall g g', t_targets t = Some g -> t_targets t' = Some g' -> g = g'))).
Proof.
  intros E E' w cfg cfg' fuel fuel' c c' tr tr' t t' HC HI U H T H' T' R.
  apply (client_reachable _ _ _ _ _ _ H) in T. apply (client_reachable _ _ _ _ _ _ H') in T'.
  pose proof (fun r m m' NR Un => same_document E E' w t t' r m m' HC HI U NR T T' R Un) as D.
  split; [exact D|]. intros UT VT.
  apply reachable_inv in T as ((F1 & F2 & _) & _ & P & _). apply reachable_inv in T' as ((F1' & F2' & _) & _ & P' & _).
  assert (ET : t_timestamp t = t_timestamp t').
  { unfold timestamp_version in VT. destruct (t_timestamp t) as [a|] eqn:A, (t_timestamp t') as [b|] eqn:B; cbn in VT; auto.
    - f_equal. apply (D Timestamp a b); auto. discriminate.
    - specialize (P a eq_refl). lia.
    - specialize (P' b eq_refl). lia. }
  split; [exact ET|]. intros US s s' Hs Hs'.
  destruct (F1 s Hs) as (ts & Hts & Vs). destruct (F1' s' Hs') as (ts' & Hts' & Vs').
  assert (ES : s = s').
  { apply (D Snapshot s s'); auto; [discriminate|]. cbn. rewrite ET, Hts' in Hts. inversion Hts; subst. congruence. }
  split; [exact ES|]. subst s'. intros UG g g' Hg Hg'.
  destruct (F2 s g Hs Hg) as (d & Ld & Vd). destruct (F2' s g' Hs' Hg') as (d' & Ld' & Vd').
  apply (D Targets g g'); auto; [discriminate|]. cbn. rewrite Ld in Ld'. inversion Ld'; subst. congruence.
Qed.
Print Assumptions C115_same_versions_same_metadata.

(** Then the same target is the same data for both, wherever each got it from, or else a
    collision of a hash function has been found. *)
Theorem C115_same_targets :
  forall (E E' : env) (w : holders) (cfg cfg' : config) (fuel fuel' : nat) (c c' : ctor) (h h' tr tr' : list event)
         (t t' u u' : tuf) (path : string),
  e_crypto E' = e_crypto E -> e_ic E' = e_ic E -> unforgeable (e_crypto E) w ->
  life E cfg fuel c h t -> life E' cfg' fuel' c' h' t' ->
  t_root t = t_root t' -> undivided E w (t_root t) Targets -> targets_version t = targets_version t' ->
  cf_translate cfg path = cf_translate cfg' path ->
  let agree b b' := b = b' \/ exists alg, collision (e_crypto E) alg b b' in
  (exec (fetch_target_to_writer E cfg fuel t path) tr (Ret (u, Ok tt)) ->
   exec (fetch_target_to_writer E' cfg' fuel' t' path) tr' (Ret (u', Ok tt)) ->
   agree (written tr) (written tr')) /\
  (exec (fetch_target E cfg fuel t path) tr (Ret (u, Ok tt)) ->
   exec (fetch_target E' cfg' fuel' t' path) tr' (Ret (u', Ok tt)) ->
   forall l1 l2 l1' l2', in_memory l1 tr l2 -> in_memory l1' tr' l2' ->
   exists b b', ep_targets l2 = insert path b (ep_targets l1) /\ ep_targets l2' = insert path b' (ep_targets l1') /\ agree b b').
Proof.
  intros E E' w cfg cfg' fuel fuel' c c' h h' tr tr' t t' u u' path HC HI U L L' R Un V TR agree.
  destruct (C43_the_field_is_tracked _ _ _ _ _ _ L) as [T H]. destruct (C43_the_field_is_tracked _ _ _ _ _ _ L') as [T' H'].
  assert (SD : forall d d' b b', listed cfg t path d -> listed cfg' t' path d' ->
            target_authentic (e_crypto E) d b -> target_authentic (e_crypto E') d' b' -> agree b b').
  { intros d d' b b' (g & virt & Hg & Tr & Ld) (g' & virt' & Hg' & Tr' & Ld') A A'. rewrite HC in A'.
    assert (g = g') as <-.
    { apply (proj1 (C115_same_versions_same_metadata E E' w cfg cfg' fuel fuel' c c' h h' t t' HC HI U H T H' T' R) Targets g g'); auto;
        [discriminate|]. unfold targets_version in V. rewrite Hg, Hg' in V. exact V. }
    rewrite TR, Tr' in Tr. inversion Tr; subst. rewrite Ld in Ld'. inversion Ld'; subst.
    destruct (string_dec b b') as [Q|Q]; [now left|right].
    destruct A as (_ & alg & v & P & D). destruct A' as (_ & alg' & v' & P' & D'). exists alg. split; [exact Q|].
    assert (alg = alg' /\ v = v') as [<- <-].
    { destruct P as [[-> X]|(-> & X & Y)], P' as [[-> X']|(-> & X' & Y')]; rewrite X in X'; try discriminate.
      - inversion X'. auto.
      - rewrite Y in Y'. inversion Y'. auto. }
    congruence. }
  split.
  - intros X X'.
    destruct (C51_written_targets_are_authentic _ _ _ _ _ _ _ X) as (d & p & src & LD & _ & _ & _ & A).
    destruct (C51_written_targets_are_authentic _ _ _ _ _ _ _ X') as (d' & p' & src' & LD' & _ & _ & _ & A').
    exact (SD _ _ _ _ LD LD' A A').
  - intros X X' l1 l2 l1' l2' M M'.
    destruct (C51_downloaded_targets_are_authentic _ _ _ _ _ _ _ X) as (d & p & src & rs & LD & _ & _ & _ & St).
    destruct (C51_downloaded_targets_are_authentic _ _ _ _ _ _ _ X') as (d' & p' & src' & rs' & LD' & _ & _ & _ & St').
    destruct (St l1 l2 M) as (b & Eq & _ & A). destruct (St' l1' l2' M') as (b' & Eq' & _ & A').
    exists b, b'. split; [exact Eq|]. split; [exact Eq'|]. exact (SD _ _ _ _ LD LD' A A').
Qed.
Print Assumptions C115_same_targets.

(** ** A case *)

(** Three of four keys have to sign timestamps, and kx is in wrong hands.  The second root
    is signed with kr1, kr2 and kr3.  Two files hold the first timestamp, signed by
    different people; a third one is forged. *)
Definition four (th : N) (v : N) (own : list string) : root_metadata :=
  mkRoot v 1000 false (keys_of_names (own ++ ["ks"; "kg"; "ka"; "kb"; "kc"; "kx"]))
         (rd 2 own) (rd 1 ["ks"]) (rd 1 ["kg"]) (rd th ["ka"; "kb"; "kc"; "kx"]).
Definition four1 : root_metadata := four 3 1 ["kr1"; "kr2"].
Definition four2 : root_metadata := four 3 2 ["kr2"; "kr3"].
Definition forged : timestamp_metadata := mkTimestamp 1 900 (mdesc 1 "snap1").
Definition four_stock : toydb :=
  [ ("root1", (["kr1"; "kr2"], DRoot four1)); ("root2", (["kr1"; "kr2"; "kr3"], DRoot four2));
    ("ts1", (["ka"; "kb"; "kc"], DTimestamp ts_one)); ("ts1-again", (["kx"; "kc"; "kb"], DTimestamp ts_one));
    ("ts1-forged", (["kx"; "ka"; "kb"], DTimestamp forged));
    ("snap1", (["ks"], DSnapshot sn_one)); ("targets1", (["kg"], DTargets ctargets1)) ].
Definition four_honest : list (string * list string) :=
  [ ("root1", ["kr1"; "kr2"]); ("root2", ["kr1"; "kr2"; "kr3"]); ("ts1", ["ka"; "kb"; "kc"]); ("ts1-again", ["kb"; "kc"]);
    ("snap1", ["ks"]); ("targets1", ["kg"]) ].
Definition Ea (o : hash_order) : env := mkEnv (watched_crypto ["kx"] four_honest) o (toy_ic four_stock).
Definition wa : holders := watched_world ["kx"] four_honest.

Definition place (ts : string) : ephemeral :=
  mkEphemeral [(("root", VNumber 1), "root1"); (("root", VNumber 2), "root2"); (("timestamp", VNone), ts);
               (("snapshot", VNone), "snap1"); (("targets", VNone), "targets1")] [("top", "hello")].
Definition a_started (E : env) (ts : string) := drive 50 ephemeral_new (place ts) c50 (construct E default_config 9 (FromRoot "root1")).
Definition a_t1 (E : env) (ts : string) : tuf := match result_of (a_started E ts) (Err NotFound) with Ok t => t | Err _ => tuf_of_root four1 end.
Definition a_updated (E : env) (ts : string) := drive 50 (snd (fst (a_started E ts))) (place ts) c50 (update E default_config 9 (a_t1 E ts)).
Definition a_t2 (E : env) (ts : string) : tuf := fst (result_of (a_updated E ts) (a_t1 E ts, Err NotFound)).
Definition a_h (E : env) (ts : string) : list event := fst (fst (a_started E ts)) ++ fst (fst (a_updated E ts)).
Definition a_written (E : env) (ts : string) :=
  drive 50 (snd (fst (a_updated E ts))) (place ts) c50 (fetch_target_to_writer E default_config 9 (a_t2 E ts) "top").

Lemma a_life E ts : snd (a_started E ts) = Ret (Ok (a_t1 E ts)) -> snd (a_updated E ts) = Ret (a_t2 E ts, Ok true) ->
  life E default_config 9 (FromRoot "root1") (a_h E ts) (a_t2 E ts).
Proof.
  intros Q1 Q2. unfold a_h.
  refine (drive_update E default_config 9 (FromRoot "root1") (fst (fst (a_started E ts))) (a_t1 E ts) 50
            (snd (fst (a_started E ts))) (place ts) c50 (a_t2 E ts) true (a_updated E ts) _ eq_refl Q2).
  exact (drive_new E default_config 9 (FromRoot "root1") 50 ephemeral_new (place ts) c50 (a_t1 E ts) (a_started E ts) eq_refl Q1).
Qed.

(** Nobody in this world signs two documents of one version. *)
Ltac toy_once := let S := fresh "S" in let S' := fresh "S'" in let L := fresh "L" in let J := fresh "J" in
  let L' := fresh "L'" in let J' := fresh "J'" in let D := fresh "D" in let D' := fresh "D'" in
  intros S S' D D'; destruct S as (? & L & J); destruct S' as (? & L' & J'); vm_compute in L, L';
  repeat (destruct L as [L|L]; [inversion L; subst; clear L|]); try contradiction L;
  repeat (destruct L' as [L'|L']; [inversion L'; subst; clear L'|]); try contradiction L';
  try (exfalso; revert J; vm_compute; intuition discriminate); try (exfalso; revert J'; vm_compute; intuition discriminate);
  revert D D'; vm_compute; intros D D'; try discriminate D; try discriminate D'; inversion D; inversion D'; subst;
  intros; try reflexivity; try discriminate.

Lemma a_undivided o r : undivided (Ea o) wa four2 r.
Proof.
  split.
  - destruct r; intros k I _ msg msg' m m'; toy_keys I; toy_once.
  - exists (match r with Timestamp => ["kx"] | _ => [] end). split; [|destruct r; vm_compute; reflexivity].
    destruct r; intros k I; toy_keys I; vm_compute; intuition discriminate.
Qed.
Lemma a_undivided_root o : undivided (Ea o) wa four1 Root.
Proof.
  split.
  - intros k I _ msg msg' m m'; toy_keys I; toy_once.
  - exists []. split; [|vm_compute; reflexivity]. intros k I; toy_keys I; vm_compute; intuition discriminate.
Qed.

Example C115_case :
  let E := Ea id_order in let E' := Ea rev_order in
  let t := a_t2 E "ts1" in let t' := a_t2 E' "ts1-again" in
  e_crypto E' = e_crypto E /\ e_ic E' = e_ic E /\ unforgeable (e_crypto E) wa /\
  life E default_config 9 (FromRoot "root1") (a_h E "ts1") t /\
  life E' default_config 9 (FromRoot "root1") (a_h E' "ts1-again") t' /\
  began_with (a_h E "ts1") four1 /\ began_with (a_h E' "ts1-again") four1 /\
  (forall n root, root_chain E n four1 root -> rm_version root < rm_version (t_root t) -> undivided E wa root Root) /\
  t_root t = four2 /\ t_root t' = four2 /\ (forall r, undivided E wa (t_root t) r) /\
  timestamp_version t = 1 /\ timestamp_version t' = 1 /\ t_snapshot t = Some sn_one /\ t_snapshot t' = Some sn_one /\
  t_targets t = Some ctargets1 /\ t_targets t' = Some ctargets1 /\
  (* a key is in wrong hands, and used *)
  stolen wa Ed25519 "kx" /\
  snd (step E (tuf_of_root four2) (OpTimestamp c50 "ts1-again")) = Ok true /\
  snd (step E (tuf_of_root four2) (OpTimestamp c50 "ts1-forged")) = Err VerificationFailure /\
  (* both download the target *)
  snd (a_written E "ts1") = Ret (t, Ok tt) /\ snd (a_written E' "ts1-again") = Ret (t', Ok tt) /\
  written (fst (fst (a_written E "ts1"))) = "hello".
Proof.
  intros E E' t t'. split; [reflexivity|]. split; [reflexivity|]. split; [apply watched_unforgeable|].
  split; [apply a_life; vm_compute; reflexivity|]. split; [apply a_life; vm_compute; reflexivity|].
  split; [exists [], (tuf_of_root four1); eexists; split; [vm_compute; reflexivity|split; reflexivity]|].
  split; [exists [], (tuf_of_root four1); eexists; split; [vm_compute; reflexivity|split; reflexivity]|].
  assert (R : t_root t = four2) by (vm_compute; reflexivity). rewrite R.
  split.
  { intros n root C L. pose proof (chain_version _ _ _ _ C) as V.
    change (rm_version four2) with 2 in L. change (rm_version four1) with 1 in V.
    assert (n = 0%nat) by lia. subst. inversion C; subst. apply a_undivided_root. }
  split; [reflexivity|]. split; [vm_compute; reflexivity|]. split; [intros r; apply a_undivided|].
  split; [vm_compute; reflexivity|]. split; [vm_compute; reflexivity|]. split; [vm_compute; reflexivity|].
  split; [vm_compute; reflexivity|]. split; [vm_compute; reflexivity|]. split; [vm_compute; reflexivity|].
  split; [vm_compute; auto|]. split; [vm_compute; reflexivity|]. split; [vm_compute; reflexivity|].
  split; [vm_compute; reflexivity|]. split; vm_compute; reflexivity.
Qed.

(** ** Why the threshold must be that large *)

(** With two of four keys, none of them stolen and nobody signing twice, two clients can
    be made to disagree: each half of the key holders signs its own first timestamp. *)
Definition half1 : root_metadata := four 2 1 ["kr1"; "kr2"].
Definition half2 : root_metadata := four 2 2 ["kr2"; "kr3"].
Definition half_stock : toydb :=
  [ ("root1", (["kr1"; "kr2"], DRoot half1)); ("root2", (["kr1"; "kr2"; "kr3"], DRoot half2));
    ("ts1", (["ka"; "kb"], DTimestamp ts_one)); ("ts1-other", (["kc"; "kx"], DTimestamp forged));
    ("snap1", (["ks"], DSnapshot sn_one)); ("targets1", (["kg"], DTargets ctargets1)) ].
Definition half_honest : list (string * list string) :=
  [ ("root1", ["kr1"; "kr2"]); ("root2", ["kr1"; "kr2"; "kr3"]); ("ts1", ["ka"; "kb"]); ("ts1-other", ["kc"; "kx"]); ("snap1", ["ks"]); ("targets1", ["kg"]) ].
Definition Eg : env := mkEnv (watched_crypto [] half_honest) id_order (toy_ic half_stock).
Definition wg : holders := watched_world [] half_honest.

Theorem C115_majority_needed :
  exists (E : env) (w : holders) (cfg : config) (fuel : nat) (c : ctor) (h h' : list event) (t t' : tuf) (ts ts' : timestamp_metadata),
  unforgeable (e_crypto E) w /\ (forall sch value, ~ stolen w sch value) /\
  life E cfg fuel c h t /\ life E cfg fuel c h' t' /\ t_root t = t_root t' /\
  let keys := listed_keys (rm_keys (t_root t)) (rd_key_ids (rm_timestamp (t_root t))) in
  careful E w Timestamp keys /\
  N.of_nat (length (nodup string_dec (map pk_id keys))) = 2 * rd_threshold (rm_timestamp (t_root t)) /\
  t_timestamp t = Some ts /\ t_timestamp t' = Some ts' /\ tm_version ts = tm_version ts' /\ ts <> ts'.
Proof.
  exists Eg, wg, default_config, 9%nat, (FromRoot "root1"), (a_h Eg "ts1"), (a_h Eg "ts1-other"),
         (a_t2 Eg "ts1"), (a_t2 Eg "ts1-other"), ts_one, forged.
  split; [apply watched_unforgeable|]. split; [intros sch value []|].
  split; [apply a_life; vm_compute; reflexivity|]. split; [apply a_life; vm_compute; reflexivity|].
  split; [vm_compute; reflexivity|].
  assert (R : t_root (a_t2 Eg "ts1") = half2) by (vm_compute; reflexivity). rewrite R.
  split; [intros k I _ msg msg' m m'; toy_keys I; toy_once|].
  split; [vm_compute; reflexivity|]. split; [vm_compute; reflexivity|]. split; [vm_compute; reflexivity|].
  split; [reflexivity|]. discriminate.
Qed.
Print Assumptions C115_majority_needed.
