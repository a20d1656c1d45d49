(** * C116: the chain of custody, and which stolen keys are enough *)
From Coq Require Import String List NArith ZArith Bool Lia.
From Verif Require Import Base BaseFacts Metadata Verify Paths Tuf SpecVerify SpecTuf VerifyProofs TufProofs TufHistory
     Reader SpecReader Repo Client SpecClient SpecHonest ClientLogic ClientProofs ClientUpdates ClientHistory ClientTargets
     Toy ClientToy Props_Client Props_Honest SpecAttack AttackProofs Props_Attack SpecCustody CustodyProofs.
Import ListNotations.
Open Scope string_scope.
Open Scope list_scope.
Open Scope N_scope.

(** ** The theorems *)

(** Whatever happens: a trusted snapshot was read from fetched bytes that a timestamp
    signed under the present root describes, and trusted targets and delegated metadata
    from fetched bytes that such a snapshot describes. *)
Theorem C116_chain_of_custody :
  forall (E : env) (cfg : config) (fuel : nat) (c : ctor) (tr : list event) (t : tuf),
  history E cfg fuel c tr -> trusted_at tr = Some t ->
  (forall s, t_snapshot t = Some s -> snapshot_custody E tr (t_root t) s) /\
  (forall g, t_targets t = Some g -> role_custody E tr (t_root t) "targets" g) /\
  (forall r g, lookup r (t_delegations t) = Some g -> role_custody E tr (t_root t) r g).
Proof. intros E cfg fuel c tr t H T. apply history_sound in H. exact (sound_custody E cfg c tr H t T). Qed.
Print Assumptions C116_chain_of_custody.

(** So the timestamp keys, or else the snapshot keys, are enough to protect everything:
    whoever has all the other keys still cannot make a client trust a snapshot, targets or
    delegated metadata that have not been published, short of a second file with the
    digest of a published one.  For the top-level targets the targets keys do as well. *)
Theorem C116_keys_of_one_role_protect :
  forall (E : env) (w : holders) (p : published) (cfg : config) (fuel : nat) (c : ctor) (tr : list event) (t : tuf),
  unforgeable (e_crypto E) w -> described_files E p ->
  history E cfg fuel c tr -> trusted_at tr = Some t ->
  let timestamps_safe := kept_role E w (t_root t) Timestamp (describes_snapshot E p) in
  let snapshots_safe := kept_role E w (t_root t) Snapshot (published_snapshot E p) in
  let targets_safe := kept_role E w (t_root t) Targets (published_role E p "targets") in
  (timestamps_safe \/ snapshots_safe ->
   (forall s, t_snapshot t = Some s -> published_snapshot E p s \/ collision_found E p tr) /\
   (forall r g, lookup r (t_delegations t) = Some g -> published_role E p r g \/ collision_found E p tr)) /\
  (timestamps_safe \/ snapshots_safe \/ targets_safe ->
   forall g, t_targets t = Some g -> published_role E p "targets" g \/ collision_found E p tr).
Proof.
  intros E w p cfg fuel c tr t U Fi H T timestamps_safe snapshots_safe targets_safe.
  destruct (C116_chain_of_custody _ _ _ _ _ _ H T) as (S & G & D). split.
  - intros K. split.
    + intros s Hs. exact (snapshot_published E w p U tr _ s K (S s Hs)).
    + intros r g Hg. exact (role_published E w p U Fi tr _ r g K (D r g Hg)).
  - assert (X : timestamps_safe \/ snapshots_safe -> forall g, t_targets t = Some g ->
                published_role E p "targets" g \/ collision_found E p tr).
    { intros K g Hg. exact (role_published E w p U Fi tr _ "targets" g K (G g Hg)). }
    intros [K|[K|K]] g Hg; [apply X; auto..|]. left.
    apply (proj1 (C85_only_published_metadata E w cfg fuel c tr t U H T) Targets (published_role E p "targets") g); auto. discriminate.
Qed.
Print Assumptions C116_keys_of_one_role_protect.

(** What is then written for a target is what the published targets metadata describe. *)
Theorem C116_targets_of_one_role_protect :
  forall (E : env) (w : holders) (p : published) (cfg : config) (fuel : nat) (c : ctor) (h tr : list event) (t t' : tuf) (path : string),
  unforgeable (e_crypto E) w -> described_files E p -> life E cfg fuel c h t ->
  kept_role E w (t_root t) Timestamp (describes_snapshot E p) \/
  kept_role E w (t_root t) Snapshot (published_snapshot E p) \/
  kept_role E w (t_root t) Targets (published_role E p "targets") ->
  exec (fetch_target_to_writer E cfg fuel t path) tr (Ret (t', Ok tt)) ->
  collision_found E p h \/
  exists g virt d, published_role E p "targets" g /\ cf_translate cfg path = Ok virt /\
    lookup virt (tg_targets g) = Some d /\ target_authentic (e_crypto E) d (written tr).
Proof.
  intros E w p cfg fuel c h tr t t' path U Fi L K X.
  destruct (C43_the_field_is_tracked _ _ _ _ _ _ L) as [T H].
  destruct (C51_written_targets_are_authentic _ _ _ _ _ _ _ X) as (d & p' & src & (g & virt & Hg & Tr & Ld) & _ & _ & _ & A).
  destruct (proj2 (C116_keys_of_one_role_protect E w p cfg fuel c h t U Fi H T) K g Hg) as [P|P]; [right|now left].
  exists g, virt, d. auto.
Qed.
Print Assumptions C116_targets_of_one_role_protect.

(** ** Cases *)

(** Three thieves: one has all keys below the root but the timestamp key, one all but the
    snapshot key, one all but the targets key.  They offer their own targets metadata, with
    a snapshot and a timestamp to match. *)
Definition virus : targets_metadata := mkTargets 1 500 [("top", content_desc "virus")] None.
Definition sn_virus : snapshot_metadata := mkSnapshot 1 600 [("targets", mdesc 1 "targets1x")].
Definition ts_virus : timestamp_metadata := mkTimestamp 1 300 (mdesc 1 "snap1x").
Definition robbed_stock : toydb :=
  [ ("root1", (["kr1"; "kr2"], DRoot root1)); ("ts1", (["kt"], DTimestamp ts_one));
    ("snap1", (["ks"], DSnapshot sn_one)); ("targets1", (["kg"], DTargets ctargets1));
    ("alice1", (["kd"], DTargets calice1)); ("bob1", (["kd"], DTargets cbob1));
    ("ts1x", (["kt"], DTimestamp ts_virus)); ("snap1x", (["ks"], DSnapshot sn_virus)); ("targets1x", (["kg"], DTargets virus)) ].
Definition robbed_honest : list (string * list string) :=
  [ ("root1", ["kr1"; "kr2"]); ("ts1", ["kt"]); ("snap1", ["ks"]); ("targets1", ["kg"]); ("alice1", ["kd"]); ("bob1", ["kd"]) ].
Definition Er (stolen : list string) : env := mkEnv (watched_crypto stolen robbed_honest) id_order (toy_ic robbed_stock).
Definition wr (stolen : list string) : holders := watched_world stolen robbed_honest.
Definition pr : published :=
  mkPublished (fun raw => raw = "snap1")
              (fun name raw => (name = "targets" /\ raw = "targets1") \/ (name = "alice" /\ raw = "alice1") \/ (name = "bob" /\ raw = "bob1")).

Definition offer (ts sn tg : string) : ephemeral :=
  mkEphemeral [(("root", VNumber 1), "root1"); (("timestamp", VNone), ts); (("snapshot", VNone), sn); (("targets", VNone), tg)]
              [("top", if String.eqb tg "targets1" then "hello" else "virus")].
Definition r_started (E : env) (o : ephemeral) := drive 50 ephemeral_new o c50 (construct E default_config 9 (FromRoot "root1")).
Definition r_t1 (E : env) (o : ephemeral) : tuf := match result_of (r_started E o) (Err NotFound) with Ok t => t | Err _ => tuf_of_root root1 end.
Definition r_updated (E : env) (o : ephemeral) := drive 50 (snd (fst (r_started E o))) o c50 (update E default_config 9 (r_t1 E o)).
Definition r_t2 (E : env) (o : ephemeral) : tuf := fst (result_of (r_updated E o) (r_t1 E o, Err NotFound)).
Definition r_h (E : env) (o : ephemeral) : list event := fst (fst (r_started E o)) ++ fst (fst (r_updated E o)).
Definition r_written (E : env) (o : ephemeral) :=
  drive 50 (snd (fst (r_updated E o))) o c50 (fetch_target_to_writer E default_config 9 (r_t2 E o) "top").

Lemma r_life E o : snd (r_started E o) = Ret (Ok (r_t1 E o)) -> snd (r_updated E o) = Ret (r_t2 E o, Ok true) ->
  life E default_config 9 (FromRoot "root1") (r_h E o) (r_t2 E o).
Proof.
  intros Q1 Q2. unfold r_h.
  refine (drive_update E default_config 9 (FromRoot "root1") (fst (fst (r_started E o))) (r_t1 E o) 50
            (snd (fst (r_started E o))) o c50 (r_t2 E o) true (r_updated E o) _ eq_refl Q2).
  exact (drive_new E default_config 9 (FromRoot "root1") 50 ephemeral_new o c50 (r_t1 E o) (r_started E o) eq_refl Q1).
Qed.

Lemma content_toy C o db r raw sg d m : lookup raw db = Some (sg, d) -> toy_decode r d = Ok m -> content (mkEnv C o (toy_ic db)) r raw m.
Proof.
  intros L D. exists (map (fun s => toy_sign s raw) sg), raw, raw. cbn. rewrite L. auto.
Qed.
Lemma pr_snapshot st s : published_snapshot (Er st) pr s -> s = sn_one.
Proof.
  intros (raw & -> & C). apply (content_fun _ _ _ _ _ C). now apply (content_toy _ _ robbed_stock Snapshot "snap1" ["ks"] (DSnapshot sn_one)).
Qed.
Lemma as_described_toy st v raw : (N.of_nat (String.length raw) <= 10) -> as_described (e_crypto (Er st)) (mdesc v raw) raw.
Proof. intros L. split; [exact L|]. exists Sha256, ("2" ++ raw)%string. split; [right; repeat split|reflexivity]. Qed.
Lemma pr_files st : described_files (Er st) pr.
Proof.
  intros s name d P L. apply pr_snapshot in P as ->. apply lookup_In in L. destruct L as [L|[L|[L|[]]]]; inversion L; subst; clear L.
  - exists "targets1". split; [left; auto|]. apply as_described_toy. vm_compute. discriminate.
  - exists "alice1". split; [right; left; auto|]. apply as_described_toy. vm_compute. discriminate.
  - exists "bob1". split; [right; right; auto|]. apply as_described_toy. vm_compute. discriminate.
Qed.

Lemma not_stolen st th keys : (forall k, In k keys -> ~ In (pk_value k) st) -> 0 < th -> outnumbered (wr st) th keys.
Proof.
  intros H L ids ND S. destruct ids as [|i ids]; cbn; [lia|]. exfalso.
  destruct (S i) as (k & I & _ & T); [now left|]. exact (H k I T).
Qed.
(** What was signed for a role, in this world. *)
Ltac toy_said := let S := fresh "S" in let L := fresh "L" in let J := fresh "J" in
  intros S; destruct S as (? & L & J); vm_compute in L;
  repeat (destruct L as [L|L]; [inversion L; subst; clear L; try (exfalso; revert J; vm_compute; intuition discriminate); vm_compute;
    let Q := fresh in intros Q; try discriminate; inversion Q; subst|]); try contradiction L.

Lemma timestamps_kept st : ~ In "kt" st -> kept_role (Er st) (wr st) root1 Timestamp (describes_snapshot (Er st) pr).
Proof.
  intros N. split; [apply not_stolen; [|vm_compute; reflexivity]; intros k I; toy_keys I; exact N|].
  intros k msg m I. toy_keys I. toy_said. exists "snap1". split; [reflexivity|].
  refine (as_described_toy st 1 "snap1" _). vm_compute. discriminate.
Qed.
Lemma snapshots_kept st : ~ In "ks" st -> kept_role (Er st) (wr st) root1 Snapshot (published_snapshot (Er st) pr).
Proof.
  intros N. split; [apply not_stolen; [|vm_compute; reflexivity]; intros k I; toy_keys I; exact N|].
  intros k msg m I. toy_keys I. toy_said. exists "snap1". split; [reflexivity|].
  exact (content_toy (e_crypto (Er st)) id_order robbed_stock Snapshot "snap1" ["ks"] (DSnapshot sn_one) sn_one eq_refl eq_refl).
Qed.
Lemma targets_kept st : ~ In "kg" st -> kept_role (Er st) (wr st) root1 Targets (published_role (Er st) pr "targets").
Proof.
  intros N. split; [apply not_stolen; [|vm_compute; reflexivity]; intros k I; toy_keys I; exact N|].
  intros k msg m I. toy_keys I. toy_said. exists "targets1". split; [left; auto|].
  exact (content_toy (e_crypto (Er st)) id_order robbed_stock Targets "targets1" ["kg"] (DTargets ctargets1) ctargets1 eq_refl eq_refl).
Qed.
Lemma no_collision st tr : ~ collision_found (Er st) pr tr.
Proof. intros (alg & b & b' & _ & _ & N & Q). apply N. destruct alg; cbn in Q; congruence. Qed.

(** The client has the published metadata although the thief of all keys but one role's
    does what they can. *)
Definition thieves : list (list string) := [["ks"; "kg"; "kd"]; ["kt"; "kg"; "kd"]; ["kt"; "ks"; "kd"]].
Definition offers : list ephemeral :=
  [offer "ts1" "snap1x" "targets1x"; offer "ts1x" "snap1x" "targets1x"; offer "ts1x" "snap1" "targets1x"; offer "ts1" "snap1" "targets1x"].
Example C116_case : forall st, In st thieves ->
  unforgeable (e_crypto (Er st)) (wr st) /\ described_files (Er st) pr /\
  (kept_role (Er st) (wr st) root1 Timestamp (describes_snapshot (Er st) pr) \/
   kept_role (Er st) (wr st) root1 Snapshot (published_snapshot (Er st) pr) \/
   kept_role (Er st) (wr st) root1 Targets (published_role (Er st) pr "targets")) /\
  let o := offer "ts1" "snap1" "targets1" in let t := r_t2 (Er st) o in
  life (Er st) default_config 9 (FromRoot "root1") (r_h (Er st) o) t /\ t_root t = root1 /\
  t_snapshot t = Some sn_one /\ t_targets t = Some ctargets1 /\
  snd (r_written (Er st) o) = Ret (t, Ok tt) /\ written (fst (fst (r_written (Er st) o))) = "hello" /\
  (forall tr, ~ collision_found (Er st) pr tr) /\
  forallb (fun o => match t_targets (r_t2 (Er st) o) with None => true | Some _ => false end) offers = true.
Proof.
  intros st I. split; [apply watched_unforgeable|]. split; [apply pr_files|]. split.
  { destruct I as [<-|[<-|[<-|[]]]]; [left; apply timestamps_kept|right; left; apply snapshots_kept|right; right; apply targets_kept];
      vm_compute; intuition discriminate. }
  intros o t. split; [apply r_life; destruct I as [<-|[<-|[<-|[]]]]; vm_compute; reflexivity|].
  split; [destruct I as [<-|[<-|[<-|[]]]]; vm_compute; reflexivity|]. split; [destruct I as [<-|[<-|[<-|[]]]]; vm_compute; reflexivity|].
  split; [destruct I as [<-|[<-|[<-|[]]]]; vm_compute; reflexivity|]. split; [destruct I as [<-|[<-|[<-|[]]]]; vm_compute; reflexivity|].
  split; [destruct I as [<-|[<-|[<-|[]]]]; vm_compute; reflexivity|]. split; [apply no_collision|].
  destruct I as [<-|[<-|[<-|[]]]]; vm_compute; reflexivity.
Qed.

(** Whoever has the keys of all three roles needs no root key. *)
Definition all_three : list string := ["kt"; "ks"; "kg"].
Theorem C116_all_three_are_enough :
  exists (E : env) (w : holders) (p : published) (cfg : config) (fuel : nat) (c : ctor) (h tr : list event) (t : tuf) (g : targets_metadata),
  unforgeable (e_crypto E) w /\ described_files E p /\ (forall tr, ~ collision_found E p tr) /\
  life E cfg fuel c h t /\
  (forall k, In k (listed_keys (rm_keys (t_root t)) (rd_key_ids (rm_root (t_root t)))) -> ~ stolen w (pk_scheme k) (pk_value k)) /\
  t_targets t = Some g /\ ~ published_role E p "targets" g /\
  exec (fetch_target_to_writer E cfg fuel t "top") tr (Ret (t, Ok tt)) /\ written tr = "virus".
Proof.
  set (o := offer "ts1x" "snap1x" "targets1x"). set (E := Er all_three).
  exists E, (wr all_three), pr, default_config, 9%nat, (FromRoot "root1"), (r_h E o), (fst (fst (r_written E o))), (r_t2 E o), virus.
  split; [apply watched_unforgeable|]. split; [apply pr_files|]. split; [apply no_collision|].
  split; [apply r_life; vm_compute; reflexivity|]. split.
  { assert (R : t_root (r_t2 E o) = root1) by (vm_compute; reflexivity). rewrite R. intros k I. toy_keys I; vm_compute; intuition discriminate. }
  split; [vm_compute; reflexivity|]. split.
  { intros (raw & F & C). destruct F as [[_ ->]|[[X _]|[X _]]]; try discriminate X.
    assert (Q : virus = ctargets1); [|discriminate Q]. apply (content_fun _ _ _ _ _ C).
    now apply (content_toy _ _ robbed_stock Targets "targets1" ["kg"] (DTargets ctargets1)). }
  split; [|vm_compute; reflexivity].
  assert (Q : snd (r_written E o) = Ret (r_t2 E o, Ok tt)) by (vm_compute; reflexivity).
  rewrite <- Q. unfold r_written. destruct (drive 50 (snd (fst (r_updated E o))) o c50 (fetch_target_to_writer E default_config 9 (r_t2 E o) "top")) as [[tr l] q] eqn:D.
  cbn [fst snd]. now apply drive_exec in D as [X _].
Qed.
Print Assumptions C116_all_three_are_enough.
