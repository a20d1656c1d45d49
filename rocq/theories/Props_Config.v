(** * C93: a client keeps to the limits it was configured with *)
From Coq Require Import String List NArith ZArith Bool Lia.
From Verif Require Import Base Metadata Paths Tuf Reader Repo Client Config SpecVerify SpecTuf SpecReader SpecPaths SpecClient SpecBuilt.
From Verif Require Import PathProofs Toy ClientToy Props_Built Props_Client.
Import ListNotations.
Open Scope string_scope.
Open Scope list_scope.
Open Scope N_scope.

(** What a call says about each of the four settings. *)
Definition about_max_root (o : config_op) : option (option N) := match o with CoRoot m => Some m | _ => None end.
Definition about_max_timestamp (o : config_op) : option (option N) := match o with CoTimestamp m => Some m | _ => None end.
Definition about_max_depth (o : config_op) : option N := match o with CoDepth n => Some n | _ => None end.
Definition about_translator (o : config_op) : option translator := match o with CoTranslator f => Some f | _ => None end.

(** The limits that [ops] ask for: what was said last, otherwise one MiB for roots, 32 KiB
    for timestamps, and eight delegations. *)
Definition root_limit (ops : list config_op) (m : option N) : Prop := said about_max_root ops (Some 1048576) m.
Definition timestamp_limit (ops : list config_op) (m : option N) : Prop := said about_max_timestamp ops (Some 32768) m.
Definition depth_limit (ops : list config_op) (n : N) : Prop := said about_max_depth ops 8 n.

Lemma config_fields ops cfg : config_of ops = Ok cfg ->
  root_limit ops (cf_max_root cfg) /\ timestamp_limit ops (cf_max_timestamp cfg) /\
  depth_limit ops (cf_max_depth cfg) /\ said about_translator ops default_real_to_virtual (cf_translate cfg).
Proof.
  intros H. injection H as <-. cbn [cf_max_root cf_max_timestamp cf_max_depth cf_translate].
  split; [|split; [|split]].
  - apply (said_fold about_max_root cb_apply cb_max_root). now intros b [].
  - apply (said_fold about_max_timestamp cb_apply cb_max_timestamp). now intros b [].
  - apply (said_fold about_max_depth cb_apply cb_max_depth). now intros b [].
  - apply (said_fold about_translator cb_apply cb_translate). now intros b [].
Qed.
Lemma said_det {O A} (f : O -> option A) ops d a b : said f ops d a -> said f ops d b -> a = b.
Proof.
  intros (w & W & ->) (w' & W' & ->). assert (w = w') as ->; [|reflexivity].
  destruct w as [x|], w' as [y|]; cbn in *; try reflexivity.
  - destruct W as (b1 & o1 & a1 & -> & F1 & N1), W' as (b2 & o2 & a2 & E & F2 & N2).
    revert b2 E. induction b1 as [|z b1 IH]; intros [|z2 b2] E; cbn in E.
    + injection E as <- <-. congruence.
    + injection E as <- ->. rewrite N1 in F2; [discriminate|]. apply in_or_app. right. now left.
    + injection E as -> <-. rewrite N2 in F1; [discriminate|]. apply in_or_app. right. now left.
    + injection E as _ E. now apply (IH b2).
  - destruct W as (b1 & o1 & a1 & -> & F1 & _). rewrite W' in F1; [discriminate|]. apply in_or_app. right. now left.
  - destruct W' as (b1 & o1 & a1 & -> & F1 & _). rewrite W in F1; [discriminate|]. apply in_or_app. right. now left.
Qed.

(** Every sequence of calls gives a configuration, with the settings asked for.  A path
    goes to the translator that was given last.  If none was, a path that may be used as
    one is looked for as it is, and others are refused. *)
Theorem C93_configurations_as_told : forall (ops : list config_op),
  exists cfg, config_of ops = Ok cfg /\
    root_limit ops (cf_max_root cfg) /\ timestamp_limit ops (cf_max_timestamp cfg) /\
    depth_limit ops (cf_max_depth cfg) /\
    (forall f, last_word about_translator ops (Some f) -> forall p, cf_translate cfg p = f p) /\
    (last_word about_translator ops None -> forall p,
       (acceptable_path p -> cf_translate cfg p = Ok p) /\ (~ acceptable_path p -> exists e, cf_translate cfg p = Err e)).
Proof.
  intros ops. eexists. split; [reflexivity|].
  destruct (config_fields ops _ eq_refl) as (A & B & D & T).
  split; [exact A|]. split; [exact B|]. split; [exact D|]. split.
  - intros f L p. assert (S : said about_translator ops default_real_to_virtual f) by (exists (Some f); now split).
    now rewrite (said_det _ _ _ _ _ T S).
  - intros L p.
    assert (S : said about_translator ops default_real_to_virtual default_real_to_virtual) by (exists None; now split).
    rewrite (said_det _ _ _ _ _ T S). unfold default_real_to_virtual. split.
    + intros U. now apply path_new_iff.
    + intros U. destruct (path_new p) as [q|e] eqn:P; [|eauto]. apply path_new_iff in P. now destruct P.
Qed.
Print Assumptions C93_configurations_as_told.

(** A client that was given this configuration: a root or a timestamp that it comes to
    trust was no longer than the limit for those; searching for a target, it makes requests
    only for roles that somebody within the limit of delegations delegates the path to, and
    ends without a panic. *)
Theorem C93_clients_keep_to_the_limits :
  forall (E : env) (ops : list config_op) (cfg : config) (fuel : nat) (c : ctor) (h : list event)
         (mr mt : option N) (depth : N),
  config_of ops = Ok cfg -> root_limit ops mr -> timestamp_limit ops mt -> depth_limit ops depth ->
  (* what becomes trusted *)
  (forall pre post t t', history E cfg fuel c h -> h = pre ++ EvPut t' :: post -> trusted_at pre = Some t ->
     (t_root t' <> t_root t -> exists raw, just_fetched pre "root" (VNumber (rm_version (t_root t) + 1)) raw /\
        root_step E (t_root t) raw (t_root t') /\ forall m, mr = Some m -> N.of_nat (String.length raw) <= m) /\
     (forall ts, t_timestamp t' = Some ts -> t_timestamp t' <> t_timestamp t ->
        exists raw cl, just_fetched pre "timestamp" VNone raw /\ timestamp_acceptable E t cl raw ts /\
          forall m, mt = Some m -> N.of_nat (String.length raw) <= m)) /\
  (* searching *)
  (forall t target virt tr q, positive_versions (e_ic E) -> depth < u32_max -> depth + 1 < N.of_nat fuel ->
     life E cfg fuel c h t -> cf_translate cfg target = Ok virt ->
     exec (fetch_target_description E cfg fuel t target) tr q ->
     q <> OutOfFuel /\ q <> Panic /\
     forall pre s path v max hash ans post, tr = pre ++ EvFetchMeta s path v max hash ans :: post ->
       walk_request t pre depth virt path).
Proof.
  intros E ops cfg fuel c h mr mt depth CF R T D.
  destruct (config_fields ops cfg CF) as (R' & T' & D' & _).
  rewrite <- (said_det _ _ _ _ _ R' R), <- (said_det _ _ _ _ _ T' T), <- (said_det _ _ _ _ _ D' D). split.
  - intros pre post t t' H S P.
    destruct (C50_metadata_downloads_are_bounded E cfg fuel c h pre post t t' H S P) as (A & B & _). split.
    + intros N. destruct (A N) as (raw & J & L & St). exists raw. split; [exact J|]. split; [exact St|]. exact L.
    + intros ts F N. destruct (B ts F N) as (raw & cl & J & _ & L & St). exists raw, cl.
      split; [exact J|]. split; [exact St|]. exact L.
  - intros t target virt tr q P B F L TR X. exact (C54_walk_is_bounded E cfg fuel c h t target virt tr q P B F L TR X).
Qed.
Print Assumptions C93_clients_keep_to_the_limits.

(** Later calls win, calls about other settings do not matter, and without any the
    defaults apply. *)
Example C93_case :
  let ops := [CoRoot (Some 7); CoDepth 3; CoRoot None; CoTimestamp (Some 4)] in
  root_limit ops None /\ timestamp_limit ops (Some 4) /\ depth_limit ops 3 /\
  root_limit [] (Some 1048576) /\ timestamp_limit [CoDepth 3] (Some 32768) /\ depth_limit [] 8 /\
  (exists cfg, config_of ops = Ok cfg /\ cf_translate cfg "a/b" = Ok "a/b" /\ is_ok (cf_translate cfg "../b") = false) /\
  config_of [] = Ok default_config.
Proof.
  split.
  { exists (Some None). split; [|reflexivity]. exists [CoRoot (Some 7); CoDepth 3], (CoRoot None), [CoTimestamp (Some 4)].
    split; [reflexivity|]. split; [reflexivity|]. now intros o [<- | []]. }
  split.
  { exists (Some (Some 4)). split; [|reflexivity]. exists [CoRoot (Some 7); CoDepth 3; CoRoot None], (CoTimestamp (Some 4)), [].
    split; [reflexivity|]. split; [reflexivity|]. now intros o []. }
  split.
  { exists (Some 3). split; [|reflexivity]. exists [CoRoot (Some 7)], (CoDepth 3), [CoRoot None; CoTimestamp (Some 4)].
    split; [reflexivity|]. split; [reflexivity|]. now intros o [<- | [<- | []]]. }
  split; [exists None; now split|]. split; [exists None; split; [|reflexivity]; now intros o [<- | []]|]. split; [exists None; now split|].
  split; [|reflexivity]. eexists. split; [reflexivity|]. split; vm_compute; reflexivity.
Qed.

(** The example client of [ClientToy.v] has the default configuration: its history meets
    the hypotheses. *)
Example C93_case_client : exists pre post t t',
  config_of [] = Ok default_config /\ history Ec default_config 9 (FromRoot "root1") (fst (fst started) ++ fst (fst updated)) /\
  fst (fst started) ++ fst (fst updated) = pre ++ EvPut t' :: post /\ trusted_at pre = Some t /\
  t_timestamp t = None /\ option_map tm_version (t_timestamp t') = Some 1.
Proof.
  set (tr := fst (fst started) ++ fst (fst updated)).
  exists (firstn 12 tr), (skipn 13 tr).
  destruct (nth_error tr 12) as [[]|] eqn:Nth; vm_compute in Nth; try discriminate.
  inversion Nth. eexists _, _. split; [reflexivity|]. split; [exact (proj1 C43_case)|].
  split; [vm_compute; reflexivity|]. vm_compute. repeat split; reflexivity.
Qed.
