(** * C84: UTF-8, base64 and null at the edge of the JSON layer *)
From Coq Require Import String Ascii List NArith ZArith Bool Lia ZifyN.
From Verif Require Import Base BaseFacts StringFacts Utf8 JsonValue JsonText SpecJson JsonProofs JsonSound JsonComplete Metadata Codec SpecCodec CodecProofs
     SpecText TextSpecProofs Serde Keys SpecKeys KeyProofs KeyToy Shims PrivateKeys SpecPrivate PrivateProofs TestVectors.
Import ListNotations.
Open Scope nat_scope.
Open Scope string_scope.

(** ** UTF-8 *)

(** The bytes between quotes (with nothing in them that needs an escape) are a string
    exactly if they are the UTF-8 of some characters, and these bytes are the string.
    What the reader makes of an escaped character is its UTF-8 (C60 has the escapes). *)
Theorem C84_utf8 :
  (forall (s : bytes), (forall n c, String.get n s = Some c -> (32 <= N_of_ascii c)%N /\ c <> """"%char /\ c <> "\"%char) ->
     (forall j, parse ("""" ++ s ++ """") = Ok j -> j = JStr s) /\
     (parse ("""" ++ s ++ """") = Ok (JStr s) <-> exists l, utf8_text l s)) /\
  (forall (t : bytes) (s : bytes), parse t = Ok (JStr s) -> exists l, utf8_text l s) /\
  (forall (n : N), scalar n -> utf8_char n (utf8_encode n)).
Proof.
  split; [|split; [|exact utf8_encode_char]].
  - intros s P.
    assert (Sp : spelled s s).
    { assert (G : forall r t, (forall n c, String.get n r = Some c -> (32 <= N_of_ascii c)%N /\ c <> """"%char /\ c <> "\"%char) ->
                spelled t t -> spelled (t ++ r) (t ++ r)).
      { induction r as [|c r IH]; intros t Q T; [now rewrite sapp_nil_r|].
        assert (E : t ++ String c r = (t ++ String c "") ++ r) by (rewrite sapp_assoc; reflexivity). rewrite E.
        apply IH; [intros n d G; exact (Q (S n) d G)|]. destruct (Q 0 c eq_refl) as (A & B & D). apply sp_plain; [exact T|exact A| |].
        - intros X. apply B. rewrite <- (ascii_N_embedding c). unfold code in X. rewrite X. reflexivity.
        - intros X. apply D. rewrite <- (ascii_N_embedding c). unfold code in X. rewrite X. reflexivity. }
      exact (G s "" P sp_nil). }
    assert (U : parse ("""" ++ s ++ """") = if utf8_valid s then Ok (JStr s) else Err Encoding).
    { unfold parse. cbn [append feed step]. unfold step_value. cbn -[append feed utf8_valid].
      change (finish (feed max_depth (Run [] (MStr CtxValue "" EPlain)) (s ++ """")) = if utf8_valid s then Ok (JStr s) else Err Encoding).
      rewrite feed_app, (feed_spelled _ _ _ _ _ Sp). cbn -[utf8_valid]. unfold end_string. destruct (utf8_valid s); reflexivity. }
    rewrite U. split.
    + intros j. destruct (utf8_valid s); [congruence|discriminate].
    + rewrite <- utf8_valid_iff. destruct (utf8_valid s); split; intros; congruence.
  - intros t s H. apply parse_iff in H as [D _]. inversion D as [w1 t' w2 j W1 V W2]; subst.
    apply utf8_valid_iff. inversion V as [| | |x y Z| | | | |]; subst; [inversion Z|]. match goal with H : literal _ _ |- _ => now destruct H end.
Qed.
Print Assumptions C84_utf8.

(** A character has one form, and no two characters have the same. *)
Theorem C84_utf8_unique :
  (forall (n : N) (c c' : bytes), utf8_char n c -> utf8_char n c' -> c = c') /\
  (forall (s : bytes) (l l' : list N), utf8_text l s -> utf8_text l' s -> l = l').
Proof.
  assert (A : forall a b : ascii, N_of_ascii a = N_of_ascii b -> a = b).
  { intros a b E. rewrite <- (ascii_N_embedding a), E. apply ascii_N_embedding. }
  assert (F : forall n c, utf8_char n c -> (n < 128 /\ exists a, c = String a "" /\ N_of_ascii a = n)%N \/
     (128 <= n < 2048 /\ exists a b, c = String a (String b "") /\ N_of_ascii a = 192 + n / 64 /\ N_of_ascii b = 128 + n mod 64)%N \/
     (2048 <= n < 65536 /\ exists a b d, c = String a (String b (String d "")) /\ N_of_ascii a = 224 + n / 4096 /\
        N_of_ascii b = 128 + n / 64 mod 64 /\ N_of_ascii d = 128 + n mod 64)%N \/
     (65536 <= n /\ exists a b d e, c = String a (String b (String d (String e ""))) /\ N_of_ascii a = 240 + n / 262144 /\
        N_of_ascii b = 128 + n / 4096 mod 64 /\ N_of_ascii d = 128 + n / 64 mod 64 /\ N_of_ascii e = 128 + n mod 64)%N).
  { unfold following. intros n c [c0 L|a b x y X Y M|a b c0 x y z X Y Z M|a b c0 d x y z w X Y Z W M]; unfold following in *.
    - left. split; [lia|]. eauto.
    - right; left. split; [lia|]. exists a, b. split; [reflexivity|]. lia.
    - right; right; left. split; [lia|]. exists a, b, c0. split; [reflexivity|]. lia.
    - right; right; right. split; [lia|]. exists a, b, c0, d. split; [reflexivity|]. lia. }
  assert (U : forall n c c', utf8_char n c -> utf8_char n c' -> c = c').
  { intros n c c' H H'. apply F in H, H'.
    destruct H as [[L (a & -> & Ea)]|[[L (a & b & -> & Ea & Eb)]|[[L (a & b & d & -> & Ea & Eb & Ed)]|[L (a & b & d & e & -> & Ea & Eb & Ed & Ee)]]]];
    destruct H' as [[L' (a' & -> & Ea')]|[[L' (a' & b' & -> & Ea' & Eb')]|[[L' (a' & b' & d' & -> & Ea' & Eb' & Ed')]|[L' (a' & b' & d' & e' & -> & Ea' & Eb' & Ed' & Ee')]]]];
    try lia; repeat f_equal; apply A; congruence. }
  split; [exact U|].
  assert (Pre : forall n c n' c' s s', utf8_char n c -> utf8_char n' c' -> c ++ s = c' ++ s' -> n = n' /\ s = s').
  { intros n c n' c' s s' H H' E. unfold following in *.
    destruct H as [c0 L|a b x y X Y M|a b c0 x y z X Y Z M|a b c0 d x y z w X Y Z W M];
    destruct H' as [c0' L'|a' b' x' y' X' Y' M'|a' b' c0' x' y' z' X' Y' Z' M'|a' b' c0' d' x' y' z' w' X' Y' Z' W' M'];
    cbn [append] in E; inversion E; subst; unfold following in *; try (exfalso; lia); (split; [lia|reflexivity]). }
  intros s l l' H. revert l'. induction H as [|n l c s S C T IH]; intros l' H'.
  - inversion H' as [|n' l2 c' s' S' C' T' E1 E2]; [reflexivity|]. destruct C'; discriminate.
  - inversion H' as [E1 E2|n' l2 c' s' S' C' T' E1 E2]; subst.
    + destruct C; discriminate.
    + destruct (Pre _ _ _ _ _ _ C' C E2) as [-> ->]. f_equal. now apply IH.
Qed.
Print Assumptions C84_utf8_unique.

(** The Euro sign, a character of four bytes, and what is not UTF-8: an overlong form, a
    surrogate, a number too large, a byte missing. *)
Definition from_codes (l : list N) : bytes := fold_right (fun n s => String (ascii_of_N n) s) "" l.
Example C84_case_utf8 :
  utf8_text [8364; 128512]%N (from_codes [226; 130; 172; 240; 159; 152; 128]%N) /\
  parse ("""" ++ from_codes [226; 130; 172; 240; 159; 152; 128]%N ++ """") = Ok (JStr (from_codes [226; 130; 172; 240; 159; 152; 128]%N)) /\
  parse ("""" ++ from_codes [192; 175]%N ++ """") = Err Encoding /\
  parse ("""" ++ from_codes [237; 160; 128]%N ++ """") = Err Encoding /\
  parse ("""" ++ from_codes [244; 144; 128; 128]%N ++ """") = Err Encoding /\
  parse ("""" ++ from_codes [226; 130]%N ++ """") = Err Encoding.
Proof.
  split; [|repeat split; vm_compute; reflexivity].
  apply (u8_cons 8364 _ (from_codes [226; 130; 172]%N)); [left; reflexivity| |].
  - apply (u8_three _ _ _ 2 2 44); cbv; intuition congruence.
  - apply (u8_cons 128512 _ (from_codes [240; 159; 152; 128]%N) ""); [right; split; [discriminate|reflexivity]| |constructor].
    apply (u8_four _ _ _ _ 0 31 24 0); cbv; intuition congruence.
Qed.

(** ** Base64 *)

(** An RSA key as metadata show it. *)
Definition rsa_object (t : string) : json :=
  JObj [("keytype", JStr "rsa"); ("scheme", JStr "rsassa-pss-sha256"); ("keyval", JObj [("public", JStr t)])].

(** The text of an RSA key is base64url (RFC 4648) with its padding and without stray bits
    of a SubjectPublicKeyInfo; several such texts may stand behind one another. *)
Theorem C84_base64_partial :
  forall (C : crypto) (t : string) (k : public_key),
  d_key C (rsa_object t) = Some k <->
  exists der, b64_texts t der /\ short der /\ spki_of KtRsa (pk_value k) der /\
    consists_of C k KtRsa RsaSsaPssSha256 None (pk_value k).
Proof.
  intros C t k.
  assert (E : d_key C (rsa_object t) =
    match b64_decode t with
    | Some b => match get_ok (from_spki_with C b RsaSsaPssSha256 None) with
                | Some k' => if key_type_eqb KtRsa (pk_typ k') then Some k' else None
                | None => None
                end
    | None => None
    end).
  { unfold d_key. change (d_shim_key (rsa_object t)) with (Some (KtRsa, RsaSsaPssSha256, @None (list string), t)). cbn [obind].
    destruct (b64_decode t); reflexivity. }
  rewrite E. split.
  - destruct (b64_decode t) as [b|] eqn:B; [|discriminate]. unfold from_spki_with. destruct (read_spki b) as [[ty v]|] eqn:R; [|discriminate].
    destruct (key_new C ty RsaSsaPssSha256 None v) as [k'|] eqn:K; [|discriminate]. cbn [get_ok].
    destruct (key_type_eqb KtRsa (pk_typ k')) eqn:T; [|discriminate]. intros H. inversion H; subst.
    apply b64_decode_iff in B. apply read_spki_iff in R as (S & F & L). apply key_new_consists in K; [|exact F].
    apply key_type_eqb_iff in T. pose proof K as (E1 & _ & _ & E2 & _). rewrite <- T in E1. subst. exists b. auto.
  - intros (der & B & L & S & K). apply b64_decode_iff in B. rewrite B. unfold from_spki_with.
    pose proof (short_fits _ _ _ S L) as F. rewrite (proj2 (read_spki_iff der KtRsa (pk_value k))) by auto.
    rewrite (proj2 (key_new_consists C KtRsa RsaSsaPssSha256 None (pk_value k) k F) K). cbn [get_ok].
    destruct K as (-> & _). reflexivity.
Qed.
Print Assumptions C84_base64_partial.

(** So one key has more than one text. *)
Definition first_apart : string := b64_encode (substring 0 1 rsa_2048_spki) ++ b64_encode (substring 1 300 rsa_2048_spki).
Theorem C84_one_text_refuted :
  exists (C : crypto) (t t' : string) (k : public_key),
    d_key C (rsa_object t) = Some k /\ d_key C (rsa_object t') = Some k /\ t <> t' /\
    pk_value k = rsa_2048_pkcs1 /\ t = b64_encode rsa_2048_spki.
Proof.
  exists checksums, (b64_encode rsa_2048_spki), first_apart, (some_key (from_spki_with checksums rsa_2048_spki RsaSsaPssSha256 None)).
  split; [vm_compute; reflexivity|]. split; [vm_compute; reflexivity|]. split; [vm_compute; discriminate|].
  split; vm_compute; reflexivity.
Qed.
Print Assumptions C84_one_text_refuted.
Example C84_case_base64 :
  d_key checksums (rsa_object "MIIB") = None /\
  (* stray bits *) b64_decode "QQ==" = Some "A" /\ b64_decode "QR==" = None /\ b64_decode "QUE=" = Some "AA" /\ b64_decode "QUF=" = None /\
  (* no padding, another alphabet *) b64_decode "QQ" = None /\ b64_decode "+/==" = None.
Proof. repeat split; vm_compute; reflexivity. Qed.

(** ** Null *)

(** Where a member may be missing, null counts as missing. *)
Theorem C84_null_is_absent :
  forall (C : crypto) (l1 l2 : list (string * json)) (n : string),
  (forall j, ~ In (n, j) l1) -> (forall j, ~ In (n, j) l2) ->
  (n = "keyid_hash_algorithms" -> d_key C (JObj (l1 ++ (n, JNull) :: l2)) = d_key C (JObj (l1 ++ l2))) /\
  (n = "delegations" -> d_targets C (JObj (l1 ++ (n, JNull) :: l2)) = d_targets C (JObj (l1 ++ l2))) /\
  (n = "custom" -> d_target_desc (JObj (l1 ++ (n, JNull) :: l2)) = d_target_desc (JObj (l1 ++ l2))).
Proof.
  intros C l1 l2 n N1 N2.
  assert (Lk : forall x, x <> n -> lookup x (l1 ++ (n, JNull) :: l2)%list = lookup x (l1 ++ l2)%list).
  { intros x X. clear N1. induction l1 as [|[y v] l IH]; cbn [app lookup].
    - unfold eqb at 1. cbn. destruct (String.eqb_spec x n); [contradiction|reflexivity].
    - now rewrite IH. }
  assert (Nn : forall l : list (string * json), (forall j, ~ In (n, j) l) -> ~ In n (map fst l)).
  { intros l X I. apply in_map_iff in I as ([y v] & E & I). cbn in E; subst. exact (X v I). }
  assert (La : lookup n (l1 ++ l2)%list = None).
  { apply lookup_None. unfold keys_of. rewrite map_app. intros I. apply in_app_or in I as [I|I]; [exact (Nn l1 N1 I)|exact (Nn l2 N2 I)]. }
  assert (Ln : lookup n (l1 ++ (n, JNull) :: l2)%list = Some JNull).
  { clear La Lk. induction l1 as [|[y v] l IH]; cbn [app lookup].
    - unfold eqb. cbn. now rewrite String.eqb_refl.
    - unfold eqb at 1. cbn. destruct (String.eqb_spec n y) as [<-|]; [destruct (N1 v); now left|]. apply IH. intros j I. apply (N1 j). now right. }
  assert (Co : forall x, Nat.leb (length (filter (String.eqb x) (map fst (l1 ++ (n, JNull) :: l2)%list))) 1 =
                         Nat.leb (length (filter (String.eqb x) (map fst (l1 ++ l2)%list))) 1).
  { assert (Z : forall l : list (string * json), (forall j, ~ In (n, j) l) -> filter (String.eqb n) (map fst l) = []).
    { intros l X. destruct (filter (String.eqb n) (map fst l)) as [|y r] eqn:E; [reflexivity|]. exfalso. apply (Nn l X).
      assert (I : In y (filter (String.eqb n) (map fst l))) by (rewrite E; now left). apply filter_In in I as [I Q].
      apply String.eqb_eq in Q. now subst. }
    intros x. rewrite !map_app, !filter_app. cbn [map fst filter]. destruct (String.eqb_spec x n) as [-> |X]; [|reflexivity].
    rewrite (Z l1 N1), (Z l2 N2). reflexivity. }
  split; [|split]; intros ->.
  - assert (E : d_shim_key (JObj (l1 ++ ("keyid_hash_algorithms", JNull) :: l2)) = d_shim_key (JObj (l1 ++ l2))).
    { unfold d_shim_key, d_fields. cbn [forallb negb orb map]. rewrite !Co, Ln, La.
      rewrite !Lk by discriminate.
    match goal with |- context [if ?b then _ else _] => destruct b; reflexivity end. }
    unfold d_key. now rewrite E.
  - unfold d_targets, d_fields. cbn [forallb negb orb map]. rewrite !Co, Ln, La. rewrite !Lk by discriminate.
    match goal with |- context [if ?b then _ else _] => destruct b; reflexivity end.
  - unfold d_target_desc, d_fields. cbn [forallb negb orb map]. rewrite !Co, Ln, La. rewrite !Lk by discriminate.
    match goal with |- context [if ?b then _ else _] => destruct b; reflexivity end.
Qed.
Print Assumptions C84_null_is_absent.
Example C84_case_null :
  let members := [("length", JInt 3%Z); ("custom", JNull); ("hashes", JObj [("sha256", JStr "00")])] in
  exists d, d_target_desc (JObj members) = Some d /\ td_custom d = None /\
    d_target_desc (JObj [("length", JNull); ("hashes", JObj [("sha256", JStr "00")])]) = None.
Proof. eexists. split; [vm_compute; reflexivity|]. split; reflexivity. Qed.
