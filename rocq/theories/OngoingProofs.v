(** * Proofs for C97 *)
From Coq Require Import String Ascii List Arith NArith ZArith Bool Lia.
From Verif Require Import Base BaseFacts Metadata Verify Paths SpecPaths PathProofs Tuf SpecVerify SpecTuf VerifyProofs TufProofs TufHistory
     StringFacts Reader SpecReader ReaderProofs Repo SpecRepo RepoProofs Http SpecHttp HttpProofs Files SpecFiles FilesProofs Props_Files
     Client SpecClient SpecHonest SpecRestart SpecCache ClientLogic ClientProofs ClientUpdates
     ClientHistory ClientWalk ClientTargets ClientRestart ClientHonest Shims SpecMeta JsonLayer Builders SpecBuilders BuilderProofs
     Props_Honest Props_Mirror CacheProofs SpecEndToEnd EndToEndProofs SpecDeployed DeployedProofs Props_Deployed SpecLive LiveProofs SpecOngoing.
Import ListNotations.
Open Scope string_scope.
Open Scope list_scope.
Open Scope nat_scope.

Lemma mixed_blended d d' : mixed (publication_of d) (publication_of d') = publication_of (blended d d').
Proof. reflexivity. Qed.

(** ** Runs to the end *)

Definition answers_of (meta : string -> meta_version -> result stream) (target : string -> result stream) (c : clock) (e : event) : Prop :=
  match e with
  | EvFetchMeta Remote p v _ _ a => a = meta p v
  | EvFetchTarget p _ a => a = target p
  | EvWrite _ a => a = None
  | EvNow c' => c' = c
  | _ => True
  end.
Lemma world_total {A} meta target c r (q : prog A) : forall hist l, wp DA q (fun _ _ => True) hist ->
  exists tr q' l', exec q tr q' /\ Forall (answers_of meta target c) tr /\ on_disk r l tr l' /\ over q'.
Proof.
  induction q as [a| | |s path v max hash k IH|path v b k IH|path de k IH|path rs k IH|b k IH|k IH|t q IH]; intros hist l W.
  1-3: eexists [], _, l; split; [constructor|]; split; [constructor|]; split; [constructor|exact I].
  - set (ans := match s with Local => fs_fetch_metadata r l path v | Remote => meta path v end).
    destruct (W ans I) as [_ W']. destruct (IH ans _ l W') as (tr & q' & l' & X & F & M & O). exists (EvFetchMeta s path v max hash ans :: tr), q', l'.
    split; [constructor; exact X|]. split; [constructor; [destruct s; [exact I|reflexivity]|exact F]|split; [|exact O]].
    apply on_disk_cons with l; [|exact M]. destruct s; [split; reflexivity|reflexivity].
  - destruct (fs_store_metadata r l path v (cursor b)) as [l1 ans] eqn:S. destruct (W ans I) as [_ W'].
    destruct (IH ans _ l1 W') as (tr & q' & l' & X & F & M & O). exists (EvStoreMeta path v b ans :: tr), q', l'.
    split; [constructor; exact X|]. split; [constructor; [exact I|exact F]|]. split; [|exact O]. apply on_disk_cons with l1; [exact S|exact M].
  - destruct (W (target path) I) as [_ W'].
    destruct (IH (target path) _ l W') as (tr & q' & l' & X & F & M & O). exists (EvFetchTarget path de (target path) :: tr), q', l'.
    split; [constructor; exact X|]. split; [constructor; [reflexivity|exact F]|].
    split; [|exact O]. apply on_disk_cons with l; [reflexivity|exact M].
  - destruct (fs_store_target r l path rs) as [l1 ans] eqn:S. destruct (W ans I) as [G W']. cbn in G.
    destruct (IH ans _ l1 W') as (tr & q' & l' & X & F & M & O). exists (EvStoreTarget path rs ans :: tr), q', l'.
    split; [constructor; exact X|]. split; [constructor; [exact I|exact F]|]. split; [|exact O].
    apply on_disk_cons with l1; [split; [exact G|exact S]|exact M].
  - destruct (W None I) as [_ W']. destruct (IH None _ l W') as (tr & q' & l' & X & F & M & O). exists (EvWrite b None :: tr), q', l'.
    split; [constructor; exact X|]. split; [constructor; [reflexivity|exact F]|]. split; [|exact O]. apply on_disk_cons with l; [reflexivity|exact M].
  - destruct (W c I) as [_ W']. destruct (IH c _ l W') as (tr & q' & l' & X & F & M & O). exists (EvNow c :: tr), q', l'.
    split; [constructor; exact X|]. split; [constructor; [reflexivity|exact F]|]. split; [|exact O]. apply on_disk_cons with l; [reflexivity|exact M].
  - destruct (W I) as [_ W']. destruct (IH _ l W') as (tr & q' & l' & X & F & M & O). exists (EvPut t :: tr), q', l'.
    split; [constructor; exact X|]. split; [constructor; [exact I|exact F]|]. split; [|exact O]. apply on_disk_cons with l; [reflexivity|exact M].
Qed.

(** ** What the servers offer *)

Section Offers.
  Variables (C : crypto) (o : hash_order) (cfg : config) (eds : nat -> edition) (disk0 : disk) (r : fs_repo) (ops : list ephemeral_op).
  Variables (from upto : nat) (path : string) (data : nat -> bytes) (bld : fs_builder) (h : http_repo).
  Hypothesis Ko : kept_in_order C cfg eds disk0 r ops from upto path data.
  Hypothesis S1 : sound_disk disk0.
  Hypothesis Ao : forall x, In x ops -> acceptable_path (op_path x).
  Let P (k : nat) : publication := publication_of (eds k).
  Let E := mkEnv C o (json_interchange C).

  Lemma blend_as i j : from <= i -> i <= j -> j <= upto -> exists m0 s0 rest b0,
    in_order E cfg (mixed (P i) (P j)) /\
    (forall raw r, In (raw, r) (pb_roots (P i)) -> exists s, In (r, s) (ed_roots (eds i)) /\ to_raw s = Ok raw) /\
    (forall r s, In (r, s) (ed_roots (eds i)) -> exists raw, In (raw, r) (pb_roots (P i)) /\ to_raw s = Ok raw) /\
    to_raw (ed_timestamp_doc (eds j)) = Ok (pb_timestamp (P j)) /\ to_raw (ed_snapshot_doc (eds j)) = Ok (pb_snapshot (P j)) /\
    to_raw (ed_targets_doc (eds j)) = Ok (pb_targets (P j)) /\
    ed_roots (eds i) = (m0, s0) :: rest /\ to_raw s0 = Ok b0 /\ from_trusted_root E b0 = Ok (tuf_of_root m0) /\
    In (b0, m0) (pb_roots (P i)) /\ (rm_version m0 <= rm_version (ed_root (eds i)))%N.
  Proof.
    intros A B D. destruct (ko_made _ _ _ _ _ _ _ _ _ _ Ko i j A B D) as [W R].
    destruct (edition_as C o cfg _ W R) as (m0 & s0 & rest & b0 & OK & _ & _ & _ & _ & In1 & In2 & Bt & Bs & Bg & E0 & B0 & T0 & I0 & V0).
    exists m0, s0, rest, b0. exact (conj OK (conj In1 (conj In2 (conj Bt (conj Bs (conj Bg (conj E0 (conj B0 (conj T0 (conj I0 V0)))))))))).

  Qed.

  Lemma files_at k : from <= k -> k <= upto -> forall j, from <= j -> j <= k ->
    published_in (disk_at r disk0 ops k) (fr_metadata r)
      (mkPublication (pb_roots (P k)) (pb_root (P k)) (pb_timestamp (P k)) (pb_ts (P k)) (pb_snapshot (P j)) (pb_sn (P j)) (pb_targets (P j)) (pb_tg (P j))).
  Proof.
    intros A B j Aj Bj. destruct (blend_as k k A (le_n _) B) as (_ & _ & _ & _ & _ & In1 & In2 & Bt & Bs & Bg & _).
    destruct (blend_as j j Aj (le_n _) (Nat.le_trans _ _ _ Bj B)) as (_ & _ & _ & _ & _ & _ & _ & _ & Bs' & Bg' & _).
    assert (Ao' : forall x, In x (firstn k ops) -> acceptable_path (op_path x)).
    { intros x I. apply Ao. rewrite <- (firstn_skipn k ops). apply in_or_app. now left. }
    pose proof (filed_published (eds k) (P k) disk0 r (firstn k ops) eq_refl eq_refl eq_refl In1 In2 Bt Bs Bg S1 Ao'
                  (ko_filed _ _ _ _ _ _ _ _ _ _ Ko k A B)) as (F1 & F2 & F3 & _ & _).
    destruct (ko_kept _ _ _ _ _ _ _ _ _ _ Ko j k Aj Bj B) as [K1 K2].
    split; [exact F1|]. split; [exact F2|]. split; [exact F3|]. unfold published_as. cbn [pb_root pb_sn pb_tg pb_snapshot pb_targets].
    rewrite (ko_consistent _ _ _ _ _ _ _ _ _ _ Ko k A B : rm_consistent (pb_root (P k)) = true). split.
    - destruct K1 as (b & Q & L). rewrite Bs' in Q. inversion Q; subst b.
      exact (last_at_content r disk0 (firstn k ops) S1 Ao' _ _ L).
    - destruct K2 as (b & Q & L). rewrite Bg' in Q. inversion Q; subst b.
      exact (last_at_content r disk0 (firstn k ops) S1 Ao' _ _ L).
  Qed.

  Lemma web_offers k server : from <= k -> k <= upto -> mirrored (disk_at r disk0 ops k) bld r h server ->
    forall p v, offers_at P from k p v (snd (http_fetch_metadata server h p v)).
  Proof.
    intros A B M p v.
    assert (G : forall j, from <= j -> j <= k -> good_event
      (mkPublication (pb_roots (P k)) (pb_root (P k)) (pb_timestamp (P k)) (pb_ts (P k)) (pb_snapshot (P j)) (pb_sn (P j)) (pb_targets (P j)) (pb_tg (P j)))
      (EvFetchMeta Remote p v None None (snd (http_fetch_metadata server h p v)))).
    { intros j Aj Bj. exact (web_good _ _ bld r h server M (files_at k A B j Aj Bj) (EvFetchMeta Remote p v None None _) eq_refl). }
    destruct (G k A (le_n _)) as (G1 & G2 & _). split; [exact G1|]. split; [exact G2|].
    assert (Co : rm_consistent (pb_root (P k)) = true) by (apply (ko_consistent _ _ _ _ _ _ _ _ _ _ Ko k A B)).
    split; intros j Aj Bj; destruct (G j Aj Bj) as (_ & _ & G3 & G4); unfold published_as in G3, G4; cbn [pb_root pb_sn pb_tg] in G3, G4;
      rewrite Co in G3, G4; assumption.
  Qed.

  Lemma eds_series : series E cfg P from upto.
  Proof.
    split.
    - intros i j A B D. destruct (ko_roots _ _ _ _ _ _ _ _ _ _ Ko i j A B D) as (more & Q). unfold P, publication_of. cbn [pb_roots].
      rewrite Q, map_app. eauto.
    - intros i j A B D. destruct (blend_as i j A B D) as (_ & _ & _ & _ & OK & _). exact OK.
    - intros i A B. apply (ko_consistent _ _ _ _ _ _ _ _ _ _ Ko i A B).
  Qed.
  Lemma series_part i k : from <= i -> k <= upto -> series E cfg P i k.
  Proof.
    intros A B. destruct eds_series as [S2 S3 S4].
    split; intros; [apply S2|apply S3|apply S4]; lia.
  Qed.
End Offers.
