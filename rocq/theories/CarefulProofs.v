(** * Proofs for C97: a publisher that takes care *)
From Coq Require Import String Ascii List Arith NArith ZArith Bool Lia.
From Verif Require Import Base BaseFacts Metadata Verify Paths SpecPaths PathProofs Tuf SpecVerify SpecTuf
     StringFacts Reader SpecReader Repo SpecRepo Http SpecHttp Files SpecFiles FilesProofs Props_Files
     Client SpecClient SpecHonest SpecRestart SpecCache ClientRestart Shims SpecMeta JsonLayer Builders SpecBuilders
     CacheProofs SpecEndToEnd EndToEndProofs SpecDeployed DeployedProofs SpecLive SpecOngoing.
Import ListNotations.
Open Scope string_scope.
Open Scope list_scope.
Open Scope nat_scope.

Lemma run_snoc r d ops x : fs_run r d (ops ++ [x]) =
  (fst (fs_step r (fst (fs_run r d ops)) x), snd (fs_run r d ops) ++ [(x, snd (fs_step r (fst (fs_run r d ops)) x))]).
Proof.
  revert d. induction ops as [|o ops IH]; intros d; cbn [app fs_run].
  - cbn [fst snd]. destruct (fs_step r d x). reflexivity.
  - destruct (fs_step r d o) as [d1 res]. rewrite IH. destruct (fs_run r d1 ops) as [d2 l]. reflexivity.
Qed.
Lemma log_before r d ops x k : k <= length ops -> log_at r d (ops ++ [x]) k = log_at r d ops k.
Proof. intros L. unfold log_at. rewrite firstn_app. replace (k - length ops) with 0 by lia. cbn [firstn]. now rewrite app_nil_r. Qed.
Lemma log_all r d ops : log_at r d ops (length ops) = snd (fs_run r d ops).
Proof. unfold log_at. now rewrite firstn_all. Qed.
Lemma log_snoc r d ops x : log_at r d (ops ++ [x]) (S (length ops)) =
  log_at r d ops (length ops) ++ [(x, snd (fs_step r (fst (fs_run r d ops)) x))].
Proof.
  replace (S (length ops)) with (length (ops ++ [x])) by (rewrite app_length; cbn; lia).
  rewrite !log_all, run_snoc. reflexivity.
Qed.

Lemma last_stays r log x res n b : last_at r log n b -> (res = Ok tt -> ~ place r x n) -> last_at r (log ++ [(x, res)]) n b.
Proof.
  intros (pre & o & post & -> & P & CT & N) H. exists pre, o, (post ++ [(x, res)]). rewrite <- app_assoc. split; [reflexivity|].
  split; [exact P|]. split; [exact CT|]. intros o' I. apply in_app_or in I as [I|[I|[]]]; [now apply N|]. inversion I; subst. now apply H.
Qed.
Lemma last_now r log x n b : place r x n -> contains (input x) b None -> last_at r (log ++ [(x, Ok tt)]) n b.
Proof. intros P CT. exists log, x, []. split; [reflexivity|]. split; [exact P|]. split; [exact CT|]. intros o []. Qed.
Lemma filed_stays r log x res f s : filed_as r log f s -> (res = Ok tt -> ~ place r x (f :: fr_metadata r)) -> filed_as r (log ++ [(x, res)]) f s.
Proof. intros (b & B & L) H. exists b. split; [exact B|]. now apply last_stays. Qed.

Lemma metadata_place r p v rs n : top_store p v -> acceptable_path p -> place r (EpMetadata p v rs) n <-> n = file_of v p :: fr_metadata r.
Proof. intros T A. rewrite (place_iff r (EpMetadata p v rs) n A). cbn [op_dir op_comps]. rewrite (top_place _ _ _ T). reflexivity. Qed.
Lemma root_place r v rs n : place r (EpMetadata "root" (VNumber v) rs) n <-> n = (decimal v ++ ".root.json")%string :: fr_metadata r.
Proof. apply metadata_place; [left; left; eauto|]. apply (path_new_iff "root" "root"). reflexivity. Qed.
Lemma timestamp_place r rs n : place r (EpMetadata "timestamp" VNone rs) n <-> n = "timestamp.json" :: fr_metadata r.
Proof.
  apply metadata_place; [left; right; cbn; auto 6|]. apply (path_new_iff "timestamp" "timestamp"). reflexivity.
Qed.

Lemma timestamp_apart v x : (decimal v ++ String "." x)%string = "timestamp.json" -> x = "json".
Proof.
  intros Q. apply (first_char_split "." (decimal v) x "timestamp" "json") in Q as [_ Q]; [exact Q|apply decimal_no_dot|].
  rewrite !has_char_cons. intros H. repeat (destruct H as [H|H]; [discriminate H|]). exact (has_char_nil "." H).
Qed.
Lemma numbered_apart v x w y : (decimal v ++ String "." x)%string = (decimal w ++ String "." y)%string -> v = w /\ x = y.
Proof.
  intros Q. apply first_char_split in Q as [Q1 Q2]; [|apply decimal_no_dot..]. split; [now apply decimal_inj|exact Q2].
Qed.

Lemma signed_versions C l m : signed_line C l m -> forall m' s, In (m', s) l -> (rm_version m' <= rm_version m)%N.
Proof.
  induction 1 as [m ks s P Q|l m m' ks s L IH P Q1 Q2 V]; intros m1 s1 I.
  - destruct I as [I|[]]. inversion I; subst. lia.
  - apply in_app_or in I as [I|[I|[]]]; [specialize (IH _ _ I); lia|]. inversion I; subst. lia.
Qed.

Lemma blended_same d : blended d d = d.
Proof. now destruct d. Qed.
Lemma then_before {A} n f (x : A) k : k <= n -> and_then n f x k = f k.
Proof. intros L. unfold and_then. now rewrite (proj2 (Nat.leb_le k n) L). Qed.
Lemma then_after {A} n f (x : A) : and_then n f x (S n) = x.
Proof. unfold and_then. rewrite (proj2 (Nat.leb_gt (S n) n)); [reflexivity|lia]. Qed.

Section Careful.
  Variables (C : crypto) (cfg : config) (disk0 : disk) (r : fs_repo) (from : nat) (path : string).

  Definition kept_names (ops : list ephemeral_op) (eds : nat -> edition) (data : nat -> bytes) (names : nat -> string) (upto : nat) : Prop :=
    forall j, from <= j -> j <= upto -> described_target C cfg (eds j) path (data j) (names j) /\
      forall k, j <= k -> k <= upto -> last_at r (log_at r disk0 ops k) (walk (fr_targets r) (split_slash (names j))) (data j).

  (** One more store. *)
  Lemma kept_step ops eds data names x d' data' name' n res :
    n = length ops -> res = snd (fs_step r (fst (fs_run r disk0 ops)) x) ->
    from <= n -> kept_in_order C cfg eds disk0 r ops from n path data -> kept_names ops eds data names n ->
    (exists more, ed_roots d' = ed_roots (eds n) ++ more) -> rm_consistent (ed_root d') = true ->
    (forall i, from <= i -> i <= n -> well_made C (blended (eds i) d') /\ readable cfg (blended (eds i) d')) ->
    well_made C d' -> readable cfg d' ->
    filed_edition d' disk0 r (log_at r disk0 ops n ++ [(x, res)]) ->
    (res = Ok tt -> forall y, place r x y -> ~ in_use r eds names from n y) ->
    described_target C cfg d' path data' name' -> last_at r (log_at r disk0 ops n ++ [(x, res)]) (walk (fr_targets r) (split_slash name')) data' ->
    kept_in_order C cfg (and_then n eds d') disk0 r (ops ++ [x]) from (S n) path (and_then n data data') /\
    kept_names (ops ++ [x]) (and_then n eds d') (and_then n data data') (and_then n names name') (S n).
  Proof.
    intros En Er Ln K Kn Mo Co Ma Wm Rd Fe Un De La.
    assert (Lb : forall k, k <= n -> log_at r disk0 (ops ++ [x]) k = log_at r disk0 ops k) by (intros; apply log_before; lia).
    assert (Ls : log_at r disk0 (ops ++ [x]) (S n) = log_at r disk0 ops n ++ [(x, res)]) by (subst; apply log_snoc).
    assert (Cs : forall k, k <= S n -> k <= n \/ k = S n) by (intros; lia).
    assert (Kn' : kept_names (ops ++ [x]) (and_then n eds d') (and_then n data data') (and_then n names name') (S n)).
    { intros j A B. destruct (Cs j B) as [B'| ->].
      - rewrite !then_before by assumption. destruct (Kn j A B') as [D L]. split; [exact D|]. intros k Jk Kk. destruct (Cs k Kk) as [Kk'| ->].
        + rewrite Lb by assumption. now apply L.
        + rewrite Ls. apply last_stays; [apply L; [exact B'|apply le_n]|]. intros R P. apply (Un R _ P). exists j. auto 6.
      - rewrite !then_after. split; [exact De|]. intros k Jk Kk. assert (k = S n) as -> by lia. rewrite Ls. exact La. }
    split; [|exact Kn']. split.
    - intros i j A B D. destruct (Cs j D) as [D'| ->].
      + rewrite !then_before by lia. apply (ko_roots _ _ _ _ _ _ _ _ _ _ K); assumption.
      + rewrite then_after. destruct (Cs i B) as [B'| ->]; [|rewrite then_after; exists []; now rewrite app_nil_r].
        rewrite then_before by assumption. destruct (ko_roots _ _ _ _ _ _ _ _ _ _ K i n A B' (le_n _)) as (m1 & Q1). destruct Mo as (m2 & Q2).
        exists (m1 ++ m2). rewrite Q2, Q1. now rewrite app_assoc.
    - intros i A B. destruct (Cs i B) as [B'| ->]; [rewrite then_before by assumption; now apply (ko_consistent _ _ _ _ _ _ _ _ _ _ K)|].
      now rewrite then_after.
    - intros i j A B D. destruct (Cs j D) as [D'| ->].
      + rewrite !then_before by lia. apply (ko_made _ _ _ _ _ _ _ _ _ _ K); assumption.
      + rewrite then_after. destruct (Cs i B) as [B'| ->]; [rewrite then_before by assumption; now apply Ma|].
        rewrite then_after, blended_same. auto.
    - intros k A B. destruct (Cs k B) as [B'| ->].
      + rewrite then_before, Lb by assumption. now apply (ko_filed _ _ _ _ _ _ _ _ _ _ K).
      + rewrite then_after, Ls. exact Fe.
    - intros j k A B D. destruct (Cs k D) as [D'| ->].
      + rewrite !then_before, Lb by lia. apply (ko_kept _ _ _ _ _ _ _ _ _ _ K); assumption.
      + rewrite Ls. destruct (Cs j B) as [B'| ->].
        * rewrite then_before by assumption. destruct (ko_kept _ _ _ _ _ _ _ _ _ _ K j n A B' (le_n _)) as [K1 K2].
          split; (apply filed_stays; [assumption|]); intros R P; apply (Un R _ P); exists j; auto 6.
        * rewrite then_after. destruct Fe as [_ _ _ F4 F5]. rewrite Co in F4, F5. auto.
    - intros j A B. exists (and_then n names name' j). exact (Kn' j A B).
  Qed.

  Lemma careful_kept ops eds data names : careful C cfg disk0 r from path ops eds data names ->
    from <= length ops /\ kept_in_order C cfg eds disk0 r ops from (length ops) path data /\ kept_names ops eds data names (length ops).
  Proof.
    assert (Len : forall (ops : list ephemeral_op) x, length (ops ++ [x]) = S (length ops)) by (intros; rewrite app_length; cbn; lia).
    induction 1 as [ops d data name Lf Co W R F De La|ops eds data names x _ (Ln & K & Kn) Fa|ops eds data names x _ (Ln & K & Kn) Un
      |ops eds data names d' data' name' rs b _ (Ln & K & Kn) Q1 Q2 Ma Fs Fg De La Tb CT x Ok1 Nn Nn'
      |ops eds data names m s rs b _ (Ln & K & Kn) d d' Co W R Sb CT x Ok1 Nn].
    - split; [lia|].
      assert (Fx : forall k, from <= k -> k <= length ops -> log_at r disk0 ops k = snd (fs_run r disk0 ops)).
      { intros k A B. assert (k = length ops) as -> by lia. apply log_all. }
      split; [split|].
      + intros. exists []. now rewrite app_nil_r.
      + auto.
      + intros. rewrite blended_same. auto.
      + intros. rewrite Fx by assumption. exact F.
      + intros. rewrite Fx by lia. destruct F as [_ _ _ F4 F5]. rewrite Co in F4, F5. auto.
      + intros j A B. exists name. split; [exact De|]. intros. rewrite Fx by lia. exact La.
      + intros j A B. split; [exact De|]. intros. rewrite Fx by lia. exact La.
    - rewrite Len. split; [lia|]. set (n := length ops) in *.
      set (res := snd (fs_step r (fst (fs_run r disk0 ops)) x)) in *. apply kept_step with (res := res); [reflexivity|reflexivity|exact Ln|exact K|exact Kn|..]; try (intros Z; now apply Fa in Z).
      + exists []. now rewrite app_nil_r.
      + now apply (ko_consistent _ _ _ _ _ _ _ _ _ _ K).
      + intros i A B. apply (ko_made _ _ _ _ _ _ _ _ _ _ K); auto.
      + pose proof (proj1 (ko_made _ _ _ _ _ _ _ _ _ _ K n n Ln (le_n _) (le_n _))) as G. now rewrite blended_same in G.
      + pose proof (proj2 (ko_made _ _ _ _ _ _ _ _ _ _ K n n Ln (le_n _) (le_n _))) as G. now rewrite blended_same in G.
      + destruct (ko_filed _ _ _ _ _ _ _ _ _ _ K n Ln (le_n _)) as [F1 F2 F3 F4 F5]. split.
        * intros m s I. apply filed_stays; [now apply F1|]. intros Z. now apply Fa in Z.
        * intros v No. destruct (F2 v No) as [G1 G2]. split; [exact G1|]. intros o I. apply in_app_or in I as [I|[I|[]]]; [now apply G2|].
          exfalso. inversion I as [[I1 I2]]. now apply Fa in I2.
        * apply filed_stays; [exact F3|]. intros Z. now apply Fa in Z.
        * apply filed_stays; [exact F4|]. intros Z. now apply Fa in Z.
        * apply filed_stays; [exact F5|]. intros Z. now apply Fa in Z.
      + exact (proj1 (Kn n Ln (le_n _))).
      + apply last_stays; [exact (proj2 (Kn n Ln (le_n _)) n (le_n _) (le_n _))|]. intros Z. now apply Fa in Z.
    - rewrite Len. split; [lia|]. set (n := length ops) in *.
      assert (Fm : forall f, ~ (forall v, f <> (decimal v ++ ".root.json")%string) \/ f = "timestamp.json" \/ in_use r eds names from n (f :: fr_metadata r) ->
        ~ place r x (f :: fr_metadata r)).
      { intros f H P. destruct (Un _ P) as (U1 & U2 & U3). destruct H as [H|[-> |H]]; [|now apply U2|now apply U1].
        apply H. intros v ->. now apply (U3 v). }
      set (res := snd (fs_step r (fst (fs_run r disk0 ops)) x)) in *. apply kept_step with (res := res); [reflexivity|reflexivity|exact Ln|exact K|exact Kn|..]; try assumption.
      + exists []. now rewrite app_nil_r.
      + now apply (ko_consistent _ _ _ _ _ _ _ _ _ _ K).
      + intros i A B. apply (ko_made _ _ _ _ _ _ _ _ _ _ K); auto.
      + pose proof (proj1 (ko_made _ _ _ _ _ _ _ _ _ _ K n n Ln (le_n _) (le_n _))) as G. now rewrite blended_same in G.
      + pose proof (proj2 (ko_made _ _ _ _ _ _ _ _ _ _ K n n Ln (le_n _) (le_n _))) as G. now rewrite blended_same in G.
      + destruct (ko_filed _ _ _ _ _ _ _ _ _ _ K n Ln (le_n _)) as [F1 F2 F3 F4 F5]. rewrite (ko_consistent _ _ _ _ _ _ _ _ _ _ K n Ln (le_n _)) in F4, F5. split.
        * intros m s I. apply filed_stays; [now apply F1|]. intros _. apply Fm. left. intros H. now apply (H (rm_version m)).
        * intros v No. destruct (F2 v No) as [G1 G2]. split; [exact G1|]. intros o I. apply in_app_or in I as [I|[I|[]]]; [now apply G2|].
          inversion I; subst. apply Fm. left. intros H. now apply (H v).
        * apply filed_stays; [exact F3|]. intros _. apply Fm. auto.
        * rewrite (ko_consistent _ _ _ _ _ _ _ _ _ _ K n Ln (le_n _)).
          apply filed_stays; [exact F4|]. intros _. apply Fm. right. right. exists n. auto 6.
        * rewrite (ko_consistent _ _ _ _ _ _ _ _ _ _ K n Ln (le_n _)).
          apply filed_stays; [exact F5|]. intros _. apply Fm. right. right. exists n. auto 6.
      + intros _ y P. exact (proj1 (Un y P)).
      + exact (proj1 (Kn n Ln (le_n _))).
      + apply last_stays; [exact (proj2 (Kn n Ln (le_n _)) n (le_n _) (le_n _))|]. intros _ P. apply (proj1 (Un _ P)). exists n. auto 6.
    - rewrite Len. split; [lia|]. set (n := length ops) in *.
      assert (Nt : forall f, f <> "timestamp.json" -> ~ place r x (f :: fr_metadata r)).
      { intros f H P. apply timestamp_place in P. inversion P. contradiction. }
      assert (Ns : forall v, (decimal v ++ ".snapshot.json")%string <> "timestamp.json") by (intros v Z; apply timestamp_apart in Z; discriminate).
      assert (Ng : forall v, (decimal v ++ ".targets.json")%string <> "timestamp.json") by (intros v Z; apply timestamp_apart in Z; discriminate).
      assert (Nr : forall v, (decimal v ++ ".root.json")%string <> "timestamp.json") by (intros v Z; apply timestamp_apart in Z; discriminate).
      assert (Cn : rm_consistent (ed_root d') = true) by (rewrite Q2; now apply (ko_consistent _ _ _ _ _ _ _ _ _ _ K)).
      assert (Bl : blended (eds n) d' = d').
      { unfold blended. rewrite <- Q1, <- Q2. now destruct d'. }
      rewrite <- (log_all r disk0 ops) in Fs, Fg, La. fold n in Fs, Fg, La.
      set (res := snd (fs_step r (fst (fs_run r disk0 ops)) x)) in *. apply kept_step with (res := res); [reflexivity|reflexivity|exact Ln|exact K|exact Kn|..]; try assumption.
      + exists []. now rewrite app_nil_r.
      + rewrite <- Bl. apply Ma; auto.
      + rewrite <- Bl. apply Ma; auto.
      + rewrite Ok1. destruct (ko_filed _ _ _ _ _ _ _ _ _ _ K n Ln (le_n _)) as [F1 F2 F3 F4 F5]. split.
        * rewrite Q1. intros m s I. apply filed_stays; [now apply F1|]. intros _. apply Nt, Nr.
        * rewrite Q1. intros v No. destruct (F2 v No) as [G1 G2]. split; [exact G1|]. intros o I. apply in_app_or in I as [I|[I|[]]]; [now apply G2|].
          inversion I; subst. apply Nt, Nr.
        * exists b. split; [exact Tb|]. apply last_now; [now apply timestamp_place|exact CT].
        * rewrite Cn. apply filed_stays; [exact Fs|]. intros _. apply Nt, Ns.
        * rewrite Cn. apply filed_stays; [exact Fg|]. intros _. apply Nt, Ng.
      + intros _ y P (j & A & B & [-> |[-> | ->]]).
        * exact (Nt _ (Ns _) P).
        * exact (Nt _ (Ng _) P).
        * apply timestamp_place in P. exact (Nn j A B P).
      + apply last_stays; [exact La|]. intros _ P. apply timestamp_place in P. exact (Nn' P).
    - rewrite Len. split; [lia|]. set (n := length ops) in *.
      assert (Nt : forall f, f <> (decimal (rm_version m) ++ ".root.json")%string -> ~ place r x (f :: fr_metadata r)).
      { intros f H P. apply root_place in P. inversion P. contradiction. }
      assert (Ns : forall v, (decimal v ++ ".snapshot.json")%string <> (decimal (rm_version m) ++ ".root.json")%string) by (intros v Z; apply numbered_apart in Z as [_ Z]; discriminate).
      assert (Ng : forall v, (decimal v ++ ".targets.json")%string <> (decimal (rm_version m) ++ ".root.json")%string) by (intros v Z; apply numbered_apart in Z as [_ Z]; discriminate).
      assert (Nx : forall v, (decimal v ++ ".root.json")%string = (decimal (rm_version m) ++ ".root.json")%string -> v = rm_version m) by (intros v Z; now apply numbered_apart in Z as [Z _]).
      assert (New : forall m1 s1, In (m1, s1) (ed_roots d) -> rm_version m1 <> rm_version m).
      { pose proof (wm_roots _ _ W) as Li. unfold d' in Li. cbn [ed_roots ed_root] in Li. intros m1 s1 I.
        inversion Li as [m2 ks2 s2 P2 S2 E2|l2 m2 m3 ks2 s2 L2 P2 S2 S3 V2 E2]; subst.
        - destruct (ed_roots d) as [|y [|z l]]; [destruct I|discriminate E2..].
        - apply app_inj_tail in E2 as [E2 _]. rewrite E2 in L2. pose proof (signed_versions _ _ _ L2 _ _ I). lia. }
      assert (Cn : rm_consistent (ed_root d) = true) by (now apply (ko_consistent _ _ _ _ _ _ _ _ _ _ K)).
      set (res := snd (fs_step r (fst (fs_run r disk0 ops)) x)) in *. apply kept_step with (res := res); [reflexivity|reflexivity|exact Ln|exact K|exact Kn|..]; try assumption.
      + exists [(m, s)]. reflexivity.
      + intros i A B. change (blended (eds i) d') with (blended (eds i) (eds n)). apply (ko_made _ _ _ _ _ _ _ _ _ _ K); auto.
      + rewrite Ok1. destruct (ko_filed _ _ _ _ _ _ _ _ _ _ K n Ln (le_n _)) as [F1 F2 F3 F4 F5]. fold d in F1, F2, F3, F4, F5. rewrite Cn in F4, F5.
        split; unfold d'; cbn [ed_roots ed_root ed_timestamp_doc ed_snapshot ed_snapshot_doc ed_targets ed_targets_doc].
        * intros m1 s1 I. apply in_app_or in I as [I|[I|[]]].
          -- apply filed_stays; [now apply F1|]. intros _. apply Nt. intros Z. now apply (New _ _ I), Nx.
          -- inversion I; subst. exists b. split; [exact Sb|]. apply last_now; [now apply root_place|exact CT].
        * intros v No. destruct (F2 v) as [G1 G2].
          { intros m1 s1 I. apply (No m1 s1). apply in_or_app. now left. }
          split; [exact G1|]. intros o I. apply in_app_or in I as [I|[I|[]]]; [now apply G2|].
          inversion I; subst. apply Nt. intros Z. apply (No m s); [apply in_or_app; right; now left|]. symmetry. now apply Nx.
        * apply filed_stays; [exact F3|]. intros _. apply Nt. intros Z. symmetry in Z. now apply timestamp_apart in Z.
        * rewrite Co. apply filed_stays; [exact F4|]. intros _. apply Nt, Ns.
        * rewrite Co. apply filed_stays; [exact F5|]. intros _. apply Nt, Ng.
      + intros _ y P (j & A & B & [-> |[-> | ->]]).
        * exact (Nt _ (Ns _) P).
        * exact (Nt _ (Ng _) P).
        * apply root_place in P. exact (Nn j A B P).
      + exact (proj1 (Kn n Ln (le_n _))).
      + apply last_stays; [exact (proj2 (Kn n Ln (le_n _)) n (le_n _) (le_n _))|]. intros _ P. apply root_place in P. exact (Nn n Ln (le_n _) P).
  Qed.
End Careful.
