(** * C111: more signatures, more keys and lower thresholds *)
From Coq Require Import String Ascii List NArith ZArith Bool Lia.
From Verif Require Import Base BaseFacts JsonValue JsonText SpecJson JsonProofs Metadata Verify SpecVerify VerifyProofs Tuf SpecTuf Codec Serde Keys
     Shims SpecKeys Builders SpecBuilders BuilderProofs SpecTime SpecMore MoreProofs MoreJsonProofs KeyToy Toy JsonToy Props_Builders.
Import ListNotations.
Open Scope nat_scope.
Open Scope string_scope.
Open Scope list_scope.

(** The full claim, that an accepted document stays accepted whatever signatures are added,
    is refuted below.  This holds when what counted for an id still counts for it. *)
Theorem C111_verification_partial :
  forall (E : env) (r : role) (raw raw' : bytes) (t t' : N) (keys keys' : list public_key) (m : metadata_of r),
  verify_signatures E r raw t keys = Ok m ->
  more_signed E raw raw' -> at_least pk_id keys keys' -> (1 <= t' <= t)%N ->
  verify_signatures E r raw' t' keys' = Ok m.
Proof. intros E r raw raw' t t' keys keys' m V S K L. exact (verify_more E r raw raw' t t' keys keys' m S K L V). Qed.
Print Assumptions C111_verification_partial.

(** That is so when the ids of all that is added are new, wherever it is added, and when
    entries with different ids are put into another order. *)
Theorem C111_new_ids :
  forall (A : Type) (id : A -> string) (l l' : list A),
  (forall more, (forall x, In x more -> ~ In (id x) (map id l)) ->
   forall a b, l = a ++ b -> at_least id l (a ++ more ++ b)) /\
  (NoDup (map id l') -> incl l l' -> at_least id l l').
Proof.
  intros A id l l'. split; [|apply at_least_nodup]. intros more N a b -> i x (l1 & l2 & Q & Ex & U).
  assert (I : In i (map id (a ++ b))) by (rewrite Q, <- Ex; apply in_map, in_or_app; right; now left).
  assert (M : forall y, In y more -> id y <> i) by (intros y Iy <-; now apply (N y)).
  apply app_eq_app in Q as (l & [[-> Q]|[-> Q]]).
  - destruct l as [|z l]; cbn [app] in Q.
    + subst b. exists (l1 ++ more), l2. rewrite app_nil_r. rewrite <- !app_assoc. now repeat split.
    + injection Q as <- ->. exists l1, (l ++ more ++ b). rewrite <- !app_assoc. split; [reflexivity|]. split; [exact Ex|].
      intros y Iy. apply in_app_or in Iy as [Iy|Iy]; [|apply in_app_or in Iy as [Iy|Iy]]; [| now apply M|];
        apply U, in_or_app; auto.
  - exists (a ++ more ++ l), l2. subst b. rewrite <- !app_assoc. now repeat split.
Qed.
Print Assumptions C111_new_ids.

(** So whoever publishes documents may add signatures: all starting points and all calls of
    the methods of [Tuf] that succeeded succeed with the same effect. *)
Theorem C111_methods :
  forall (E : env),
  (forall raw raw' t, more_signed E raw raw' ->
    (from_trusted_root E raw = Ok t -> from_trusted_root E raw' = Ok t) /\
    (forall th keys, from_root_with_trusted_keys E raw th keys = Ok t -> from_root_with_trusted_keys E raw' th keys = Ok t)) /\
  (forall ops ops' t t', Forall2 (more_signed_call E) ops ops' -> succeed E t ops t' -> succeed E t ops' t').
Proof.
  intros E. split; [intros raw raw' t S; now apply started_more|]. intros ops ops' t t' S. now apply (succeed_more E ops ops' S).
Qed.
Print Assumptions C111_methods.

(** A file that is accepted can be read, merged with another file, and written: it is
    accepted as before. *)
Theorem C111_merge_signatures_partial :
  forall (C : crypto) (o : hash_order) (r : role) (file other : bytes) (s s2 s' : signed_metadata) (t : N)
         (keys : list public_key) (m : metadata_of r),
  json_from_slice d_signed file = Ok (sg_sigs s, sg_raw s) -> json_from_slice d_signed other = Ok (sg_sigs s2, sg_raw s2) ->
  verify_signatures (mkEnv C o (json_interchange C)) r file t keys = Ok m ->
  merge_signatures s s2 = (s', Ok tt) ->
  exists b, to_raw s' = Ok b /\ verify_signatures (mkEnv C o (json_interchange C)) r b t keys = Ok m.
Proof.
  intros C o r file other s s2 s' t keys m F1 F2 V M.
  assert (K : exists msg, canonicalize (sg_raw s) = Ok msg).
  { apply verify_signatures_iff in V as (_ & sigs & signed & msg & E1 & E2 & _). cbn in E1, E2. rewrite F1 in E1. injection E1 as <- <-. eauto. }
  destruct K as (msg & K). destruct (merged_more C o file other s s2 s' msg F1 F2 K M) as (b & B & S).
  exists b. split; [exact B|]. eapply verify_again; eassumption.
Qed.
Print Assumptions C111_merge_signatures_partial.

(** The same after signing it again, with any key of which the id belongs to no other key. *)
Theorem C111_add_signature :
  forall (C : crypto) (o : hash_order) (r : role) (file : bytes) (s s' : signed_metadata) (k : private_key) (rnd : N) (t : N)
         (keys : list public_key) (m : metadata_of r),
  json_from_slice d_signed file = Ok (sg_sigs s, sg_raw s) ->
  verify_signatures (mkEnv C o (json_interchange C)) r file t keys = Ok m ->
  working_key C k -> ids_identify keys [k] -> add_signature s k rnd = (s', Ok tt) ->
  exists b, to_raw s' = Ok b /\ verify_signatures (mkEnv C o (json_interchange C)) r b t keys = Ok m.
Proof.
  intros C o r file s s' k rnd t keys m F V W Id A. apply verify_signatures_iff in V.
  destruct (added_authentic C o file s k rnd s' r t keys m F W Id A V) as (b & B & V'). exists b. split; [exact B|].
  now apply verify_signatures_iff.
Qed.
Print Assumptions C111_add_signature.

(** ** What does harm *)
Definition msg_t : bytes := the "" (canonicalize (value_of Timestamp jtimestamp)).
Definition signed_by_t (sigs : list signature) : bytes := write (e_signed sigs (value_of Timestamp jtimestamp)).
Definition good (k : public_key) : signature := sign_with k msg_t.
Definition bad (k : public_key) : signature := sign_with k "something else".

(** A further signature with an id that is there already, and wrong: the last one counts. *)
Theorem C111_any_signature_refuted :
  exists (C : crypto) (o : hash_order) (file file' : bytes) (sigs : list signature) (x : signature) (raw : json)
         (k : public_key) (m : timestamp_metadata),
  let E := mkEnv C o (json_interchange C) in
  json_from_slice d_signed file = Ok (sigs, raw) /\ json_from_slice d_signed file' = Ok (sigs ++ [x], raw) /\
  verify_signatures E Timestamp file 1 [k] = Ok m /\
  verify_signatures E Timestamp file' 1 [k] = Err VerificationFailure.
Proof.
  exists checksums, id_order, (signed_by_t [good key_t]), (signed_by_t [good key_t; bad key_t]), [good key_t], (bad key_t).
  exists (value_of Timestamp jtimestamp), key_t, jtimestamp. cbv zeta. repeat match goal with |- _ /\ _ => split end; vm_compute; reflexivity.
Qed.
Print Assumptions C111_any_signature_refuted.

(** Merging a document that would be accepted into one with a wrong signature: the wrong one
    stays, and keeps out the right one. *)
Theorem C111_merge_signatures_refuted :
  exists (C : crypto) (o : hash_order) (file other b : bytes) (s s2 s' : signed_metadata) (k : public_key) (m : timestamp_metadata),
  let E := mkEnv C o (json_interchange C) in
  json_from_slice d_signed file = Ok (sg_sigs s, sg_raw s) /\ json_from_slice d_signed other = Ok (sg_sigs s2, sg_raw s2) /\
  verify_signatures E Timestamp other 1 [k] = Ok m /\ merge_signatures s s2 = (s', Ok tt) /\ to_raw s' = Ok b /\
  verify_signatures E Timestamp b 1 [k] = Err VerificationFailure.
Proof.
  exists checksums, id_order, (signed_by_t [bad key_t]), (signed_by_t [good key_t]), (signed_by_t [bad key_t]).
  exists (mkSigned [bad key_t] (value_of Timestamp jtimestamp)), (mkSigned [good key_t] (value_of Timestamp jtimestamp)).
  exists (mkSigned [bad key_t] (value_of Timestamp jtimestamp)), key_t, jtimestamp. cbv zeta. repeat match goal with |- _ /\ _ => split end; vm_compute; reflexivity.
Qed.
Print Assumptions C111_merge_signatures_refuted.

(** Two of three keys have signed; a third signature is merged and one is made again; one key
    is added, and the threshold lowered. *)
Example C111_case :
  let file := signed_by_t [good key_t; bad key_g; good key_r] in
  let other := signed_by_t [good key_s; bad key_t] in
  let s := mkSigned [good key_t; bad key_g; good key_r] (value_of Timestamp jtimestamp) in
  let s2 := mkSigned [good key_s; bad key_t] (value_of Timestamp jtimestamp) in
  let s' := mkSigned [good key_t; bad key_g; good key_r; good key_s] (value_of Timestamp jtimestamp) in
  let s'' := mkSigned [bad key_g; good key_r; good key_t] (value_of Timestamp jtimestamp) in
  json_from_slice d_signed file = Ok (sg_sigs s, sg_raw s) /\ json_from_slice d_signed other = Ok (sg_sigs s2, sg_raw s2) /\
  verify_signatures json_env Timestamp file 2 [key_r; key_t; key_s] = Ok jtimestamp /\
  merge_signatures s s2 = (s', Ok tt) /\
  working_key checksums sk_t /\ ids_identify [key_r; key_t; key_s] [sk_t] /\ add_signature s sk_t 0 = (s'', Ok tt) /\
  more_signed json_env file (signed_by_t (sg_sigs s')) /\ at_least pk_id [key_r; key_t; key_s] [key_t; key_s; key_r; key_g].
Proof.
  cbv zeta. split; [vm_compute; reflexivity|]. split; [vm_compute; reflexivity|]. split; [vm_compute; reflexivity|].
  split; [vm_compute; reflexivity|]. split; [apply toy_works; vm_compute; tauto|].
  split; [|split; [vm_compute; reflexivity|split]].
  - intros k p [<-|[]] I Q. destruct I as [<-|[<-|[<-|[]]]]; vm_compute in Q; try discriminate. reflexivity.
  - exists [good key_t; bad key_g; good key_r], ([good key_t; bad key_g; good key_r] ++ [good key_s]), (value_of Timestamp jtimestamp).
    split; [vm_compute; reflexivity|]. split; [vm_compute; reflexivity|]. apply at_least_snoc. intros x [<-|[]] I.
    vm_compute in I. destruct I as [I|[I|[I|[]]]]; discriminate.
  - apply at_least_nodup; [vm_compute; repeat constructor; cbn; intuition discriminate|].
    intros x [<-|[<-|[<-|[]]]]; [right; right; left|left|right; left]; reflexivity.
Qed.
Definition two_by (r : role) (m : metadata_of r) (k k' : public_key) : list signature :=
  [sign_with k (the "" (canonicalize (value_of r m)))] ++ [sign_with k' (the "" (canonicalize (value_of r m)))].
Example C111_methods_case :
  let c := mkClock 0 0 0 0 0 (fun _ => 0%Z) in
  let root := publish_metadata Root [key_r] jroot in let root' := publish_metadata Root [key_r; key_g] jroot in
  let ts := publish_metadata Timestamp [key_t] jtimestamp in let ts' := publish_metadata Timestamp [key_t; key_r] jtimestamp in
  more_signed json_env root root' /\ root <> root' /\
  Forall2 (more_signed_call json_env) [OpTimestamp c ts] [OpTimestamp c ts'] /\ ts <> ts' /\
  exists t t', from_trusted_root json_env root = Ok t /\ succeed json_env t [OpTimestamp c ts] t' /\ t' <> t.
Proof.
  cbv zeta. split; [|split; [intros Q; vm_compute in Q; discriminate|split; [|split; [intros Q; vm_compute in Q; discriminate|]]]].
  - exists [sign_with key_r (the "" (canonicalize (value_of Root jroot)))], (two_by Root jroot key_r key_g), (value_of Root jroot).
    split; [vm_compute; reflexivity|]. split; [vm_compute; reflexivity|]. apply at_least_snoc. intros x [<-|[]] I.
    vm_compute in I. destruct I as [I|[]]; discriminate.
  - constructor; [|constructor]. constructor. exists [good key_t], (two_by Timestamp jtimestamp key_t key_r), (value_of Timestamp jtimestamp).
    split; [vm_compute; reflexivity|]. split; [vm_compute; reflexivity|]. apply at_least_snoc. intros x [<-|[]] I.
    vm_compute in I. destruct I as [I|[]]; discriminate.
  - eexists. eexists. split; [vm_compute; reflexivity|]. split; [eapply succeed_cons; [vm_compute; reflexivity|constructor]|intros Q; vm_compute in Q; discriminate].
Qed.
