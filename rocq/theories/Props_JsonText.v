(** * C59, C60: canonical JSON *)
From Coq Require Import String Ascii List NArith ZArith Bool Permutation Lia Sorted.
From Verif Require Import Base JsonValue Utf8 JsonText SpecJson StringFacts JsonComplete JsonSound JsonProofs.
Import ListNotations.
Open Scope string_scope.

(** ** The reader and the grammar of RFC 8259 (used by both) *)

(** [serde_json::from_slice] accepts exactly the documents of the grammar nested at
    most 127 deep, and reads what they spell. *)
Theorem C60_reader_is_the_grammar :
  forall (t : bytes) (j : json), parse t = Ok j <-> document t j /\ depth j <= 127.
Proof. exact parse_iff. Qed.
Print Assumptions C60_reader_is_the_grammar.

(** No text spells two values. *)
Theorem C60_no_text_is_ambiguous :
  forall (t : bytes) (j j' : json), document t j -> document t j' -> j = j'.
Proof. intros t j j' D D'. exact (document_unique t j j' D D'). Qed.
Print Assumptions C60_no_text_is_ambiguous.

Example C60_case_reader :
  parse " { ""b"" : [ 1 , -0.5e3 , {} ] , ""a\u0041\ud83d\uDE00"" : null } "
  = Ok (JObj [("b", JArr [JInt 1; JFloat "-0.5e3"; JObj []]);
              ("aA" ++ String "240" (String "159" (String "152" (String "128" ""))), JNull)]) /\
  parse "{""a"":1,}" = Err Encoding /\ parse "[01]" = Err Encoding /\ parse """\ud83d""" = Err Encoding /\
  parse "1 1" = Err Encoding /\ parse (String "255" "") = Err Encoding.
Proof. vm_compute. repeat split; reflexivity. Qed.

(** ** C59 *)

Theorem C59_canonical_bytes_are_unambiguous :
  forall (j j' : json) (b : bytes),
  holds_in_value j -> holds_in_value j' -> unique_names j -> unique_names j' ->
  canonicalize j = Ok b -> canonicalize j' = Ok b -> same_value j j'.
Proof.
  intros j j' b H H' U U' C C'. apply canonicalize_Ok in C as [_ ->]. apply canonicalize_Ok in C' as [_ E].
  apply write_inj in E; try (apply to_value_holds; assumption).
  eapply same_value_trans; [apply same_value_to_value_refl; exact U|]. rewrite E.
  apply same_value_sym, same_value_to_value_refl, U'.
Qed.
Print Assumptions C59_canonical_bytes_are_unambiguous.

(** Canonical bytes are themselves a JSON text, spell the same value with the names
    of every object in increasing order, and are read back as it. *)
Theorem C59_canonical_bytes_read_back :
  forall (j : json) (b : bytes),
  holds_in_value j -> unique_names j -> canonicalize j = Ok b ->
  exists v, document b v /\ same_value j v /\ in_order v /\
            (depth j <= 127 -> value_from_slice b = Ok v) /\ canonicalize v = Ok b.
Proof.
  intros j b H U C. apply canonicalize_Ok in C as [F ->]. exists (to_value j).
  assert (HV := to_value_holds j H).
  split; [apply document_of_value, write_text, HV|].
  split; [apply same_value_to_value_refl, U|].
  split; [apply to_value_normal|].
  split.
  - intros D. unfold value_from_slice. rewrite parse_write; [cbn; now rewrite to_value_idem|exact HV|].
    etransitivity; [apply to_value_depth|exact D].
  - apply canonicalize_Ok. rewrite to_value_idem. split; [|reflexivity].
    intros G. apply F. eapply same_value_float; [apply same_value_sym, same_value_to_value_refl, U|exact G].
Qed.
Print Assumptions C59_canonical_bytes_read_back.

Definition sample : json :=
  JObj [("z", JArr [JInt (-3); JNull; JStr (String "010" "a""b")]); ("a", JObj [("y", JInt 1); ("x", JBool true)])].
Definition sample_bytes : bytes := "{""a"":{""x"":true,""y"":1},""z"":[-3,null,""\na\""b""]}".

Lemma sample_holds : holds_in_value sample.
Proof. repeat first [reflexivity | lia | constructor]. Qed.
Lemma sample_unique : unique_names sample.
Proof. repeat first [constructor | intros [|]; cbn in *; intuition congruence | cbn; intuition congruence]. Qed.

Example C59_case :
  holds_in_value sample /\ unique_names sample /\ canonicalize sample = Ok sample_bytes /\
  is_ok (value_from_slice sample_bytes) = true /\
  canonicalize (JStr "1") <> canonicalize (JInt 1).
Proof.
  split; [exact sample_holds|]. split; [exact sample_unique|].
  split; [vm_compute; reflexivity|]. split; [vm_compute; reflexivity|]. vm_compute. discriminate.
Qed.

(** ** C60 *)

Theorem C60_canonical_bytes_ignore_spelling :
  forall (t t' : bytes) (j j' : json),
  document t j -> document t' j' -> unique_names j -> same_value j j' -> depth j <= 127 ->
  exists v v', value_from_slice t = Ok v /\ value_from_slice t' = Ok v' /\
               canonicalize v = canonicalize v'.
Proof.
  intros t t' j j' D D' U S L. exists (to_value j), (to_value j').
  unfold value_from_slice.
  rewrite (proj2 (parse_iff t j) (conj D L)).
  rewrite (proj2 (parse_iff t' j') (conj D' (Nat.le_trans _ _ _ (same_value_depth j j' S) L))).
  split; [reflexivity|]. split; [reflexivity|].
  now rewrite (same_value_to_value j j' U S).
Qed.
Print Assumptions C60_canonical_bytes_ignore_spelling.

(** The only failure: a number that is no 64-bit integer. *)
Theorem C60_canonicalize_fails_on_floats_only :
  forall (j : json),
  (has_float j -> canonicalize j = Err Opaque) /\ (~ has_float j -> exists b, canonicalize j = Ok b).
Proof.
  intros j. split; intros H.
  - apply canonicalize_Err. auto.
  - exists (write (to_value j)). apply canonicalize_Ok. auto.
Qed.
Print Assumptions C60_canonicalize_fails_on_floats_only.

Definition sample_text : bytes :=
  " {""a"" : {""y"":1,""x"":true} ,  ""z"":[ -3,null,""\u000aa\u0022b"" ]}".
Definition sample_tree : json :=
  JObj [("a", JObj [("y", JInt 1); ("x", JBool true)]); ("z", JArr [JInt (-3); JNull; JStr (String "010" "a""b")])].

Example C60_case :
  document sample_text sample_tree /\ document sample_bytes (to_value sample) /\
  unique_names sample_tree /\ same_value sample_tree (to_value sample) /\ depth sample_tree <= 127 /\
  (let? v := value_from_slice sample_text in canonicalize v) = Ok sample_bytes /\
  has_float (JArr [JInt 1; JFloat "1.0"]) /\ canonicalize (JArr [JInt 1; JFloat "1.0"]) = Err Opaque.
Proof.
  split; [apply parse_iff; vm_compute; reflexivity|].
  split; [apply parse_iff; vm_compute; reflexivity|].
  split; [unfold sample_tree; repeat first [constructor | intros [|]; cbn in *; intuition congruence | cbn; intuition congruence]|].
  split. { apply same_value_sym. eapply same_value_trans; [apply same_value_sym, same_value_to_value_refl, sample_unique|].
    eapply sv_obj; [apply perm_swap|]. repeat constructor; apply same_value_refl. }
  split; [cbn; lia|]. split; [vm_compute; reflexivity|]. split.
  - eapply hf_arr; [right; left; reflexivity|constructor].
  - reflexivity.
Qed.
