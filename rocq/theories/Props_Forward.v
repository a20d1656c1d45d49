(** * C108: members the library does not know *)
From Coq Require Import String List NArith ZArith Bool Lia.
From Verif Require Import Base BaseFacts JsonValue JsonText SpecJson JsonProofs Metadata Verify SpecVerify VerifyProofs SpecTuf Serde Keys Shims JsonLayer
     KeyToy Toy JsonToy Props_Json SpecForward ForwardProofs.
Import ListNotations.
Open Scope string_scope.
Open Scope list_scope.

(** Further members, wherever they stand, change nothing about what is read: neither what
    is accepted, nor what comes out of it. *)
Theorem C108_unknown_members_are_ignored :
  forall (C : crypto) (r : role) (j j' : json),
  grown (metadata_shape r) j j' ->
  ic_deserialize (json_interchange C) r j' = ic_deserialize (json_interchange C) r j /\
  (forall s s', parse s = Ok j -> parse s' = Ok j' ->
     ic_from_slice (json_interchange C) r s' = ic_from_slice (json_interchange C) r s).
Proof.
  intros C r j j' G. cbn [json_interchange ic_deserialize ic_from_slice]. split.
  - unfold json_deserialize. now rewrite (ignores_metadata C r _ _ G).
  - intros s s' P P'. unfold json_from_slice. rewrite P, P'. cbn [rbind]. now rewrite (ignores_metadata C r _ _ G).
Qed.
Print Assumptions C108_unknown_members_are_ignored.

(** So what a client trusts of a document with further members is what it would trust of
    the document without them. *)
Theorem C108_trusted_content :
  forall (C : crypto) (o : hash_order) (r : role) (raw : bytes) (t : N) (keys : list public_key) (m : metadata_of r)
         (sigs : list signature) (signed signed' : json),
  verify_signatures (mkEnv C o (json_interchange C)) r raw t keys = Ok m ->
  ic_envelope (json_interchange C) raw = Ok (sigs, signed') -> grown (metadata_shape r) signed signed' ->
  ic_deserialize (json_interchange C) r signed = Ok m.
Proof.
  intros C o r raw t keys m sigs signed signed' V En G.
  apply verify_signatures_iff in V as (_ & s & g & msg & E' & Ca & _ & D). cbn [e_ic] in *.
  rewrite En in E'. injection E' as <- <-.
  rewrite (C62_json_is_faithful C r raw sigs signed' msg En Ca) in D.
  destruct (C108_unknown_members_are_ignored C r _ _ G) as [Q _]. now rewrite Q in D.
Qed.
Print Assumptions C108_trusted_content.

(** Around the signed part, and beside a signature, further members do not even need to be
    signed. *)
Theorem C108_envelope :
  forall (C : crypto) (o : hash_order) (r : role) (s s' : bytes) (j j' : json) (t : N) (keys : list public_key),
  parse s = Ok j -> parse s' = Ok j' -> grown envelope_shape j j' ->
  verify_signatures (mkEnv C o (json_interchange C)) r s' t keys =
  verify_signatures (mkEnv C o (json_interchange C)) r s t keys.
Proof.
  intros C o r s s' j j' t keys P P' G. unfold verify_signatures. cbn [e_ic json_interchange ic_envelope].
  unfold json_from_slice. rewrite P, P'. cbn [rbind]. now rewrite (ignores_signed _ _ G).
Qed.
Print Assumptions C108_envelope.

(** A key has the same id whatever else stands beside its parts. *)
Theorem C108_key_ids :
  forall (C : crypto) (j j' : json) (k : public_key),
  grown key_shape j j' -> d_key C j = Some k -> exists k', d_key C j' = Some k' /\ pk_id k' = pk_id k /\ k' = k.
Proof. intros C j j' k G D. exists k. now rewrite (ignores_key C _ _ G). Qed.
Print Assumptions C108_key_ids.

(** The one exception: a timestamp lists the snapshot and nothing else. *)
Theorem C108_timestamps_list_nothing_else :
  forall (C : crypto) (members listed : list (string * json)) (n : string) (v : json),
  lookup "meta" members = Some (JObj listed) -> In (n, v) listed -> n <> "snapshot.json" ->
  ic_deserialize (json_interchange C) Timestamp (JObj members) = Err Encoding.
Proof.
  intros C members listed n v L I N. cbn [json_interchange ic_deserialize d_metadata]. unfold json_deserialize.
  assert (Z : d_timestamp (JObj members) = None); [|now rewrite Z].
  unfold d_timestamp. destruct (d_fields _ _ _ _) as [fs|] eqn:F; [|reflexivity].
  rewrite (fields_lookup _ _ _ _ _ F). cbn [map]. rewrite L.
  assert (M : d_required d_timestamp_meta (Some (JObj listed)) = None).
  { cbn [d_required obind]. unfold d_timestamp_meta. rewrite (closed_refuses _ 0 _ n v I); [reflexivity|].
    intros [Q | []]. now apply N. }
  rewrite M. repeat match goal with |- (have _ := ?e in _) = _ => destruct e; cbn [obind]; [|reflexivity] end. reflexivity.
Qed.
Print Assumptions C108_timestamps_list_nothing_else.

(** On the other hand nothing has a default but [delegations]: a document without one of the
    other members is refused. *)
Definition members_of (r : role) : list string :=
  ["_type"; "spec_version"; "version"; "expires"] ++
  match r with
  | Root => ["consistent_snapshot"; "keys"; "roles"]
  | Timestamp | Snapshot => ["meta"]
  | Targets => ["targets"]
  end.
Theorem C108_known_members_are_needed :
  forall (C : crypto) (r : role) (members : list (string * json)) (n : string),
  In n (members_of r) -> lookup n members = None ->
  ic_deserialize (json_interchange C) r (JObj members) = Err Encoding.
Proof.
  intros C r members n I L. cbn [json_interchange ic_deserialize]. unfold json_deserialize.
  assert (Z : d_metadata C r (JObj members) = None); [|now rewrite Z].
  destruct r; cbn [members_of app In] in I; cbn [d_metadata]; unfold d_root, d_snapshot, d_targets, d_timestamp;
    (destruct (d_fields _ _ _ _) as [fs|] eqn:F; [|reflexivity]); rewrite (fields_lookup _ _ _ _ _ F); cbn [map];
    repeat (destruct I as [I | I]; [subst n; rewrite L; cbn [d_required obind];
      repeat match goal with |- (have _ := ?e in _) = _ => destruct e; cbn [obind]; [|reflexivity] end; reflexivity|]);
    contradiction I.
Qed.
Print Assumptions C108_known_members_are_needed.

(** Targets with a description that has a member of its own, and with a member of its own;
    the document can be signed and is accepted as the old one would be; a timestamp that also
    lists the root is not. *)
Section Case.
  Let described (more : list (string * json)) : json :=
    JObj ([("length", JInt 3%Z)] ++ more ++ [("hashes", JObj [("sha256", JStr "00")])]).
  Let listing (here below : list (string * json)) : json :=
    JObj ([("_type", JStr "targets"); ("expires", JStr "2030-01-01T00:00:00Z")] ++ here ++
          [("spec_version", JStr "1.0"); ("targets", JObj [("a", described []); ("b", described below)]);
           ("version", JInt 4%Z)]).
  Let news : list (string * json) := [("path_hash_prefixes", JArr [JNull])].
  Let stamp (also : list (string * json)) : json :=
    JObj [("_type", JStr "timestamp"); ("expires", JStr "2030-01-01T00:00:00Z");
          ("meta", JObj (("snapshot.json", JObj [("hashes", JObj [("sha256", JStr "00")]); ("length", JInt 3%Z); ("version", JInt 4%Z)]) :: also));
          ("spec_version", JStr "1.0"); ("version", JInt 4%Z)].
  Example C108_case :
    grown (metadata_shape Targets) (listing [] []) (listing news news) /\
    (exists m, verify_signatures json_env Targets (publish [key_g] (listing news news)) 1 [key_g] = Ok m /\
       ic_deserialize (json_interchange checksums) Targets (listing [] []) = Ok m /\
       map fst (tg_targets m) = ["a"; "b"]) /\
    (exists m, ic_deserialize (json_interchange checksums) Timestamp (stamp []) = Ok m) /\
    ic_deserialize (json_interchange checksums) Timestamp (stamp [("root.json", JNull)]) = Err Encoding.
  Proof.
    split; [|split; [|split]].
    - apply (grown_twice _ _ (listing news [])).
      + refine (grown_here _ "path_hash_prefixes" _ [_; _] [_; _; _] _). cbn. intuition discriminate.
      + refine (grown_below _ "targets" (Named target_shape) [_; _; _; _] [_] _ _ _ _); [cbn; tauto|].
        refine (grown_named _ "b" [_] [] _ _ _).
        refine (grown_here _ "path_hash_prefixes" _ [_] [_] _). cbn. intuition discriminate.
    - eexists. split; [vm_compute; reflexivity|]. split; vm_compute; reflexivity.
    - eexists. vm_compute. reflexivity.
    - vm_compute. reflexivity.
  Qed.
End Case.
