(** * C28-C33: paths *)
From Coq Require Import String Ascii List NArith Bool Lia.
From Verif Require Import Base BaseFacts Metadata Paths StringFacts SpecPaths PathProofs.
Import ListNotations.
Open Scope string_scope.

(** ** C28 *)

Lemma first_component_nonempty s a l : acceptable_path s -> split_slash s = a :: l -> a <> "".
Proof.
  intros (H1 & H2 & _) E ->. rewrite <- (join_split s), E in H1, H2. destruct l as [|b l]; cbn in *; [congruence|].
  now apply (H2 (join_slash (b :: l))).
Qed.

Lemma last_in_or_first {A} (l : list A) x y r : (l ++ [x] = y :: r)%list -> (l = [] /\ x = y) \/ exists l', l = y :: l'.
Proof. destruct l; cbn; intros H; inversion H; eauto. Qed.

Lemma sapp_empty a b : a ++ b = "" -> a = "" /\ b = "".
Proof. destruct a; cbn; [auto|discriminate]. Qed.

(** Resolving the components below a base directory ends strictly below it. *)
Lemma stays_below comps base first rest :
  (forall x, In x comps -> x <> "." /\ x <> "..") -> comps = first :: rest -> first <> "" ->
  exists sub, sub <> [] /\ walk base comps = (sub ++ base)%list.
Proof.
  intros H E N. exists (rev (filter (fun x => negb (String.eqb x "")) comps)). split; [|now apply walk_plain].
  rewrite E. cbn. apply String.eqb_neq in N. rewrite N. cbn. intros C. apply app_eq_nil in C as [_ C]. discriminate.
Qed.

Theorem C28_paths_cannot_escape :
  forall s : string,
  (* exactly which strings the constructors accept; the value is the string itself *)
  (forall p, path_new s = Ok p <-> p = s /\ acceptable_path s) /\
  (* targets *)
  (path_new s = Ok s -> forall base, exists sub, sub <> [] /\ walk base (target_components s) = (sub ++ base)%list) /\
  (* metadata, any version, any extension of the interchange *)
  (path_new s = Ok s -> forall ext v base, ext <> "" -> ext <> "." -> ~ has_char "/" ext ->
     exists sub, sub <> [] /\ walk base (metadata_components ext s v) = (sub ++ base)%list) /\
  (* hash-prefixed targets *)
  (path_new s = Ok s -> forall hash q base, with_hash_prefix s hash = Ok q ->
     exists sub, sub <> [] /\ walk base (target_components q) = (sub ++ base)%list).
Proof.
  assert (T : forall s, acceptable_path s -> forall base,
    exists sub, sub <> [] /\ walk base (target_components s) = (sub ++ base)%list).
  { intros s A base. destruct (split_slash s) as [|f r] eqn:E; [now destruct (split_nonempty s)|].
    apply (stays_below _ _ f r); auto.
    - intros x I. now apply (acceptable_components s).
    - now apply (first_component_nonempty s f r). }
  intros s. split; [intros p; apply path_new_iff|]. split; [|split].
  - intros H. apply path_new_iff in H as [_ A]. now apply T.
  - intros H ext v base X1 X2 X3. apply path_new_iff in H as [_ A].
    destruct (metadata_components_eq ext s v) as (a & x & E1 & E2).
    destruct (metadata_components ext s v) as [|f r] eqn:E.
    { now destruct a. }
    apply (stays_below _ _ f r); auto.
    + intros y I. rewrite <- E in I. destruct (metadata_components_safe ext s v y A X1 X2 X3 I) as (? & ? & _). auto.
    + symmetry in E2. apply last_in_or_first in E2 as [(-> & <-)|(a' & ->)].
      * intros C. apply sapp_empty in C as [_ C]. apply sapp_empty in C as [_ C]. discriminate.
      * eapply (first_component_nonempty s); eauto.
  - intros H hash q base W. unfold with_hash_prefix in W. apply path_new_iff in W as [-> A]. now apply T.
Qed.
Print Assumptions C28_paths_cannot_escape.

Example C28_case :
  path_new "a/b.txt" = Ok "a/b.txt" /\ path_new "a/../b" = Err IllegalArgument /\ path_new "/a" = Err IllegalArgument /\
  path_new "" = Err IllegalArgument /\ path_new "a:b" = Err IllegalArgument /\ path_new "..." = Ok "..." /\
  walk ["srv"] (metadata_components "json" "d/role" (VNumber 3)) = ["3.role.json"; "d"; "srv"] /\
  with_hash_prefix "a/b" "z" = Ok "a/7a.b" /\
  (* what the rejected ones would do *)
  walk ["srv"] ["a"; ".."; ".."; "etc"] = ["etc"].
Proof. vm_compute. repeat split; reflexivity. Qed.

(** ** C29 *)

(** The names of devices. *)
Definition device_name (s : string) : Prop :=
  In s ["CON"; "PRN"; "AUX"; "NUL"; "KEYBD$"; "CLOCK$"; "SCREEN$"; "$IDLE$"; "CONFIG$"] \/
  exists p d, In p ["COM"; "LPT"] /\ In d ["1"; "2"; "3"; "4"; "5"; "6"; "7"; "8"; "9"] /\ s = p ++ d.

(** False: the component is lower-cased and then compared with upper-case names. *)
Theorem C29_device_names_refuted :
  forall name, device_name name ->
  path_new name = Ok name /\ path_new ("a/" ++ name) = Ok ("a/" ++ name) /\
  path_new (to_lowercase name) = Ok (to_lowercase name).
Proof.
  intros name [H|(p & d & P & D & ->)].
  - cbn in H. repeat (destruct H as [<-|H]; [vm_compute; repeat split; reflexivity|]). destruct H.
  - cbn in P, D. repeat (destruct P as [<-|P]); try destruct P;
      repeat (destruct D as [<-|D]; [vm_compute; repeat split; reflexivity|]); destruct D.
Qed.
Print Assumptions C29_device_names_refuted.

(** The check has no effect at all: acceptance is the same as without it. *)
Theorem C29_device_names_check_is_dead_partial :
  forall s : string, path_new s = Ok s <->
  s <> "" /\ (forall b, s <> "/" ++ b) /\ (forall c, has_char c s -> ~ forbidden c) /\
  ~ component s "." /\ ~ component s "..".
Proof. intros s. rewrite path_new_iff. unfold acceptable_path. tauto. Qed.
Print Assumptions C29_device_names_check_is_dead_partial.

Example C29_case : path_new "dir/NUL" = Ok "dir/NUL" /\ path_new "con" = Ok "con".
Proof. vm_compute. split; reflexivity. Qed.

(** ** C30 *)

Theorem C30_path_matching :
  (forall q p, is_child q p = true <-> (exists a, p = a ++ "/") /\ exists b, q = p ++ b) /\
  (forall target groups, matches_chain target groups = true <-> in_chain target groups) /\
  (forall target, matches_chain target [] = false) /\
  (* and so a match implies that some path of every group lies above the target *)
  (forall target groups g, matches_chain target groups = true -> In g groups ->
     exists p, In p g /\ below target p).
Proof.
  split; [apply is_child_iff|]. split; [apply matches_chain_iff|]. split; [reflexivity|].
  intros target groups g H I. apply matches_chain_iff in H. now apply (in_chain_above target groups).
Qed.
Print Assumptions C30_path_matching.

Example C30_case :
  is_child "foo/bar" "foo/" = true /\ is_child "foo/bar" "foo" = false /\ is_child "foobar" "foo/" = false /\
  matches_chain "foo/bar/x" [["foo/"]; ["foo/bar/"; "q/"]; ["foo/bar/x"]] = true /\
  matches_chain "foo/bar/x" [["foo/"]; ["bar/"]] = false.
Proof. vm_compute. repeat split; reflexivity. Qed.

(** ** C31 *)

(** False: the unversioned file of a role named "1.root" is version 1 of "root". *)
Theorem C31_locations_refuted :
  exists s s', path_new s = Ok s /\ path_new s' = Ok s' /\ s <> s' /\
    forall ext, metadata_components ext s VNone = metadata_components ext s' (VNumber 1).
Proof. exists "1.root", "root". repeat split; try reflexivity. discriminate. Qed.
Print Assumptions C31_locations_refuted.

(** These are the only collisions. *)
Theorem C31_locations_partial :
  forall ext s v s' v',
  metadata_components ext s v = metadata_components ext s' v' <->
  (s = s' /\ v = v') \/
  (exists n, v = VNone /\ v' = VNumber n /\
     exists dir f, split_slash s' = app dir [f] /\ split_slash s = app dir [decimal n ++ "." ++ f]) \/
  (exists n, v' = VNone /\ v = VNumber n /\
     exists dir f, split_slash s = app dir [f] /\ split_slash s' = app dir [decimal n ++ "." ++ f]).
Proof. exact components_collide. Qed.
Print Assumptions C31_locations_partial.

(** In particular, as long as versions are used alike, different pairs are kept apart. *)
Corollary C31_locations_same_kind :
  forall ext s v s' v', (v = VNone <-> v' = VNone) ->
  metadata_components ext s v = metadata_components ext s' v' -> s = s' /\ v = v'.
Proof.
  intros ext s v s' v' K H. apply components_collide in H as [H|[(n & -> & -> & _)|(n & -> & -> & _)]]; auto.
  - now destruct K as [K _]; specialize (K eq_refl).
  - now destruct K as [_ K]; specialize (K eq_refl).
Qed.
Print Assumptions C31_locations_same_kind.

Example C31_case :
  metadata_components "json" "d/role" (VNumber 12) = ["d"; "12.role.json"] /\
  metadata_components "json" "d/role" VNone = ["d"; "role.json"].
Proof. vm_compute. split; reflexivity. Qed.

(** On a file system empty components vanish, so more names share a file. *)
Theorem C31_same_file_refuted :
  exists s s', path_new s = Ok s /\ path_new s' = Ok s' /\ s <> s' /\
    forall ext v base, walk base (metadata_components ext s v) = walk base (metadata_components ext s' v).
Proof.
  exists "a//b", "a/b". split; [reflexivity|]. split; [reflexivity|]. split; [discriminate|].
  intros ext v base. reflexivity.
Qed.
Print Assumptions C31_same_file_refuted.

(** ** C32 *)

Theorem C32_hash_prefix :
  (forall path hash dir file, path_new path = Ok path -> split_slash path = (dir ++ [file])%list ->
     (hash <> "" \/ file <> "") ->
     with_hash_prefix path hash = Ok (join_slash (app dir [hex_encode hash ++ "." ++ file]))) /\
  (forall p h p' h' q, with_hash_prefix p h = Ok q -> with_hash_prefix p' h' = Ok q -> p = p' /\ h = h').
Proof.
  split.
  - intros path hash dir file H. apply path_new_iff in H as [_ A]. now apply with_hash_prefix_ok.
  - exact with_hash_prefix_inj.
Qed.
Print Assumptions C32_hash_prefix.

(** The slash-free directory part is untouched: [join_slash] and [split_slash] are
    inverse to each other. *)
Theorem C32_components_roundtrip :
  (forall s, join_slash (split_slash s) = s) /\
  (forall l, l <> [] -> (forall x, In x l -> ~ has_char "/" x) -> split_slash (join_slash l) = l).
Proof. split; [exact join_split|exact split_join]. Qed.
Print Assumptions C32_components_roundtrip.

Example C32_case :
  path_new "a/b/c.txt" = Ok "a/b/c.txt" /\ with_hash_prefix "a/b/c.txt" (String "255" (String "001" "")) = Ok "a/b/ff01.c.txt".
Proof. vm_compute. split; reflexivity. Qed.

(** ** C33 *)

(** The paths of the four top-level roles, written out. *)
Definition own_file (r : role) (path : string) : Prop :=
  match r with
  | Root => path = "root" | Snapshot => path = "snapshot" | Timestamp => path = "timestamp"
  | Targets => path <> "root" /\ path <> "snapshot" /\ path <> "timestamp"
  end.

(** False: targets metadata may be fetched or stored as "timestamp". *)
Theorem C33_role_check_refuted : exists r path, fuzzy_matches_path r path = true /\ ~ own_file r path.
Proof. exists Targets, "timestamp". split; [reflexivity|]. cbn. tauto. Qed.
Print Assumptions C33_role_check_refuted.

(** That is the only exception. *)
Theorem C33_role_check_partial :
  forall r path, fuzzy_matches_path r path = true <->
    own_file r path \/ (r = Targets /\ path = "timestamp").
Proof.
  intros r path. destruct r; cbn [fuzzy_matches_path own_file].
  - rewrite String.eqb_eq. split; [tauto|]. intros [H|[H _]]; [auto|discriminate].
  - rewrite String.eqb_eq. split; [tauto|]. intros [H|[H _]]; [auto|discriminate].
  - rewrite orb_true_iff, String.eqb_eq, negb_true_iff.
    pose proof (mem_In (path : string) ["root"; "snapshot"; "targets"]) as M. cbn [In] in M.
    destruct (mem path ["root"; "snapshot"; "targets"]).
    + destruct M as [M _]. specialize (M eq_refl). destruct M as [<-|[<-|[<-|[]]]]; split; intros H.
      all: try (now left; repeat split; congruence).
      all: try (destruct H as [H|H]; discriminate).
      all: destruct H as [(H1 & H2 & H3)|(_ & H)]; [congruence|discriminate].
    + assert (N : ~ ("root" = path \/ "snapshot" = path \/ "targets" = path \/ False))
        by (intros H; apply M in H; discriminate).
      split; [intros _|auto].
      destruct (string_dec path "timestamp") as [->|T]; [auto|left]. repeat split; auto; intros ->; tauto.
  - rewrite String.eqb_eq. split; [tauto|]. intros [H|[H _]]; [auto|discriminate].
Qed.
Print Assumptions C33_role_check_partial.

Example C33_case :
  fuzzy_matches_path Root "root" = true /\ fuzzy_matches_path Root "targets" = false /\
  fuzzy_matches_path Targets "snapshot" = false /\ fuzzy_matches_path Targets "delegate" = true.
Proof. vm_compute. repeat split; reflexivity. Qed.
