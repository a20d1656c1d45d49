(** * C35-C39, C68, C70: checked and rate-limited reads, descriptions of data *)
From Coq Require Import String List NArith QArith Bool Lia.
From Verif Require Import Base BaseFacts JsonValue Metadata F32 Reader SpecReader StringFacts ReaderProofs F32Proofs Toy.
Import ListNotations.
Open Scope string_scope.
Open Scope list_scope.
Open Scope N_scope.

(** A reader for the examples: gives the listed answers one by one, whatever the
    buffer. *)
Definition scripted (rs : list reply) : source :=
  mkSource (list reply) rs
    (fun st _ => match st with [] => (Ready "", []) | r :: rest => (r, rest) end).

(** ** C35 *)

Theorem C35_checked_read_sound :
  forall (C : crypto) (src : source) (max : N) (hash : option (hash_alg * bytes)) (s : safe_reader)
         (sizes : list nat) (pre : list reply),
  safe_new max hash = Ok s ->
  polls (checked C src s) sizes = pre ++ [Ready ""] -> underway pre ->
  length_ok max (delivered pre) /\ hash_ok C hash (delivered pre) /\ polls src sizes = pre ++ [Ready ""].
Proof.
  intros C src max hash s sizes pre N H U. apply safe_new_tracks in N. rewrite polls_checked in H.
  destruct (run_inner C max hash (polls src sizes) "" s pre [Ready ""] N U) as (rest & s' & E & P & T & L & L'); auto;
    try (unfold length_ok; cbn; lia).
  cbn [append] in *. destruct rest as [|r rest]; [discriminate|]. cbn [safe_run] in P.
  destruct (safe_poll C s' r) as [r' s2] eqn:E2. inversion P as [[P1 P2]]. subst r'.
  destruct rest; [|cbn in P2; destruct (safe_poll C s2 r0); discriminate].
  split; auto. destruct r as [|k|d].
  - cbn in E2. inversion E2.
  - cbn in E2. inversion E2.
  - destruct (string_dec d "") as [->|Nd].
    + destruct (safe_poll_end C max hash (delivered pre) s' T) as [(O & F)|(O & F)]; rewrite E2 in F; [auto|discriminate].
    + destruct (safe_poll_data C max hash (delivered pre) s' d T Nd) as [(_ & _ & s3 & E3 & _)|(_ & E3)];
        rewrite E2 in E3; inversion E3. congruence.
Qed.
Print Assumptions C35_checked_read_sound.

(** Chopped, delayed, and read with odd buffers; the toy digest of "hello" is "2hello". *)
Example C35_case :
  let s := mkSafe 5 (Some (Sha256, "", "2hello")) 0 in
  safe_new 5 (Some (Sha256, "2hello")) = Ok s /\
  polls (checked toy_crypto (scripted [Ready "he"; Pending; Ready "l"; Ready "lo"; Ready ""]) s) [7; 1; 1; 2; 9]%nat
  = [Ready "he"; Pending; Ready "l"; Ready "lo"] ++ [Ready ""] /\
  underway [Ready "he"; Pending; Ready "l"; Ready "lo"].
Proof.
  split; [reflexivity|]. split; [vm_compute; reflexivity|].
  unfold underway.
  repeat (apply Forall_cons; [first [now left | right; eexists; split; [|reflexivity]; discriminate]|]). apply Forall_nil.
Qed.

(** The same for [read_to_end] on any finite stream: exactly what it returns. *)
Theorem C35_read_to_end :
  forall (C : crypto) (max : N) (hash : option (hash_alg * bytes)) (s : safe_reader) (rs : stream) (b : bytes),
  safe_new max hash = Ok s ->
  (read_to_end C s rs "" = Ok b <->
   contains rs b None /\ length_ok max b /\ length_ok u64_max b /\ hash_ok C hash b).
Proof. intros C max hash s rs b N. apply read_to_end_ok; auto. Qed.
Print Assumptions C35_read_to_end.

Example C35_case_read_to_end :
  read_to_end toy_crypto (mkSafe 5 (Some (Sha256, "", "2hello")) 0) [Ready "he"; Pending; Ready "llo"] "" = Ok "hello" /\
  read_to_end toy_crypto (mkSafe 4 (Some (Sha256, "", "2hello")) 0) [Ready "he"; Pending; Ready "llo"] "" = Err Opaque /\
  read_to_end toy_crypto (mkSafe 5 (Some (Sha256, "", "2hullo")) 0) [Ready "he"; Pending; Ready "llo"] "" = Err Opaque /\
  read_to_end toy_crypto (mkSafe 5 None 0) [Ready "he"; Failed IoNotFound; Ready "llo"] "" = Err NotFound.
Proof. vm_compute. repeat split; reflexivity. Qed.

(** ** C36 *)

Theorem C36_checked_read_complete :
  forall (C : crypto) (src : source) (max : N) (hash : option (hash_alg * bytes)),
  (* creating the reader only fails for an unknown algorithm *)
  ((exists s, safe_new max hash = Ok s) <-> forall x v, hash <> Some (HashUnknown x, v)) /\
  forall (s : safe_reader) (sizes : list nat) (pre : list reply),
  safe_new max hash = Ok s ->
  polls src sizes = pre ++ [Ready ""] -> underway pre ->
  length_ok max (delivered pre) -> length_ok u64_max (delivered pre) -> hash_ok C hash (delivered pre) ->
  polls (checked C src s) sizes = pre ++ [Ready ""].
Proof.
  intros C src max hash. split; [apply safe_new_ok|].
  intros s sizes pre N H U L L' O. apply safe_new_tracks in N. rewrite polls_checked, H.
  destruct (run_same C max hash pre "" s N U) as (s' & R & T); auto. rewrite R. f_equal.
  cbn [append] in T. cbn [safe_run]. destruct (safe_poll_end C max hash (delivered pre) s' T) as [(_ & F)|(F & _)];
    [|contradiction].
  destruct (safe_poll C s' (Ready "")) as [r s2]. cbn in F. now subst.
Qed.
Print Assumptions C36_checked_read_complete.

Example C36_case :
  let src := scripted [Ready "h"; Ready "ello"; Ready ""] in
  polls src [1; 4; 1]%nat = [Ready "h"; Ready "ello"] ++ [Ready ""] /\
  polls (checked toy_crypto src (mkSafe 5 (Some (Sha256, "", "2hello")) 0)) [1; 4; 1]%nat
  = [Ready "h"; Ready "ello"] ++ [Ready ""].
Proof. vm_compute. split; reflexivity. Qed.

(** ** C37 *)

Theorem C37_never_more_than_max :
  forall (C : crypto) (src : source) (max : N) (hash : option (hash_alg * bytes)) (s : safe_reader)
         (sizes : list nat),
  safe_new max hash = Ok s ->
  length_ok max (delivered (polls (checked C src s) sizes)).
Proof.
  intros C src max hash s sizes N. apply safe_new_tracks in N as (T1 & T2 & _). rewrite polls_checked.
  pose proof (run_bounded C (polls src sizes) s) as H. rewrite T1, T2 in H.
  unfold length_ok, byte_length in *. cbn in H. lia.
Qed.
Print Assumptions C37_never_more_than_max.

(** The chunk that exceeds the limit is refused, a later one that fits is handed out. *)
Example C37_case :
  polls (checked toy_crypto (scripted [Ready "abc"; Ready "defgh"; Ready "x"]) (mkSafe 5 None 0)) [9; 9; 9; 9]%nat
  = [Ready "abc"; Failed IoInvalidData; Ready "x"; Ready ""].
Proof. vm_compute. reflexivity. Qed.

(** ** C38 *)

(** False, for both kinds of error: reading on after the error reports a clean end. *)
Theorem C38_failed_read_refuted :
  (exists (C : crypto) (src : source) (max : N) (hash : option (hash_alg * bytes)) (s : safe_reader) (sizes : list nat),
     safe_new max hash = Ok s /\
     polls (checked C src s) sizes = [Ready "evil"; Failed IoInvalidData; Ready ""] /\
     ~ hash_ok C hash "evil") /\
  (exists (C : crypto) (src : source) (max : N) (s : safe_reader) (sizes : list nat),
     safe_new max None = Ok s /\
     polls (checked C src s) sizes = [Failed IoInvalidData; Ready ""] /\
     polls src sizes = [Ready "too long"; Ready ""]).
Proof.
  split.
  - exists toy_crypto, (scripted [Ready "evil"]), 10, (Some (Sha256, "2good")), (mkSafe 10 (Some (Sha256, "", "2good")) 0),
      [8; 8; 8]%nat. split; [reflexivity|]. split; [vm_compute; reflexivity|]. cbn. discriminate.
  - exists toy_crypto, (scripted [Ready "too long"]), 3, (mkSafe 3 None 0), [8; 8]%nat.
    split; [reflexivity|]. split; vm_compute; reflexivity.
Qed.
Print Assumptions C38_failed_read_refuted.

(** What holds: as long as the source itself has not reported its end before, a clean
    end is only reported if the bytes handed out have the demanded hash, even if length
    errors were reported in between. *)
Theorem C38_failed_read_partial :
  forall (C : crypto) (src : source) (max : N) (hash : option (hash_alg * bytes)) (s : safe_reader)
         (sizes : list nat) (inner pre : list reply),
  safe_new max hash = Ok s ->
  polls src sizes = inner ++ [Ready ""] -> (forall d, In (Ready d) inner -> d <> "") ->
  polls (checked C src s) sizes = pre ++ [Ready ""] ->
  hash_ok C hash (delivered pre) /\ length_ok max (delivered pre).
Proof.
  intros C src max hash s sizes inner pre N H NE E.
  pose proof (C37_never_more_than_max C src max hash s sizes N) as B. rewrite E, delivered_app in B. cbn in B.
  rewrite sapp_nil_r in B. split; auto.
  apply safe_new_tracks in N. rewrite polls_checked, H in E.
  destruct (run_tracks C max hash inner "" s N NE) as (s' & R & T). rewrite R in E.
  cbn [safe_run] in E. destruct (safe_poll C s' (Ready "")) as [r s2] eqn:P.
  apply app_inj_tail in E as [E F]. subst r. rewrite E in T. cbn [append] in T.
  destruct (safe_poll_end C max hash (delivered pre) s' T) as [(O & _)|(_ & F)]; auto. rewrite P in F. discriminate.
Qed.
Print Assumptions C38_failed_read_partial.

Example C38_case :
  let src := scripted [Ready "hel"; Ready "too long"; Ready "lo"; Ready ""] in
  polls (checked toy_crypto src (mkSafe 5 (Some (Sha256, "", "2hello")) 0)) [9; 9; 9; 9]%nat
  = [Ready "hel"; Failed IoInvalidData; Ready "lo"] ++ [Ready ""].
Proof. vm_compute. reflexivity. Qed.

(** ** C39 *)

(** When the first answer with data (or an end) arrived. *)
Fixpoint first_ready (calls : list (N * N * reply)) : option N :=
  match calls with
  | [] => None
  | (t0, _, Ready _) :: _ => Some t0
  | _ :: rest => first_ready rest
  end.

(** All bytes the inner reader has produced. *)
Definition produced (calls : list (N * N * reply)) : N :=
  N.of_nat (String.length (delivered (map snd calls))).

Fixpoint bitrate_after (s : bitrate) (calls : list (N * N * reply)) : bitrate :=
  match calls with
  | [] => s
  | (t0, t1, r) :: rest => bitrate_after (snd (bitrate_poll s t0 t1 r)) rest
  end.

Lemma bitrate_run_app calls rest : forall s,
  bitrate_run s (calls ++ rest) = bitrate_run s calls ++ bitrate_run (bitrate_after s calls) rest.
Proof.
  induction calls as [|[[t0 t1] r] calls IH]; intros s; cbn; auto.
  destruct (bitrate_poll s t0 t1 r) as [r' s']. cbn. now rewrite IH.
Qed.

Lemma bitrate_state calls : forall s,
  br_min (bitrate_after s calls) = br_min s /\
  br_read (bitrate_after s calls) = br_read s + produced calls /\
  br_start (bitrate_after s calls) = match br_start s with Some t => Some t | None => first_ready calls end.
Proof.
  induction calls as [|[[t0 t1] r] calls IH]; intros s; cbn [bitrate_after].
  - unfold produced. cbn. repeat split; [lia|]. now destruct (br_start s).
  - destruct (IH (snd (bitrate_poll s t0 t1 r))) as (H1 & H2 & H3). rewrite H1, H2, H3. clear.
    destruct r as [|k|d]; cbn [bitrate_poll snd].
    + auto.
    + auto.
    + assert (P : produced ((t0, t1, Ready d) :: calls) = byte_length d + produced calls).
      { unfold produced. cbn [map snd delivered].
        change (N.of_nat (String.length ?x)) with (byte_length x). apply byte_length_app. }
      rewrite P. destruct (byte_length d =? 0) eqn:Z.
      { apply N.eqb_eq in Z. rewrite Z. cbn. destruct (br_start s); repeat split; lia. }
      destruct (_ && _); cbn; destruct (br_start s); repeat split; lia.
Qed.

Theorem C39_slow_transfers_cut_off :
  forall (min : N) (calls : list (N * N * reply)) (t0 t1 : N) (r : reply) (start : N),
  first_ready (calls ++ [(t0, t1, r)]) = Some start ->
  let before := bitrate_run (bitrate_new min) calls in
  (* times are in nanoseconds; what is handed out after the grace period of 30 seconds was fast enough, up to one millionth *)
  (forall d, d <> "" -> bitrate_run (bitrate_new min) (calls ++ [(t0, t1, r)]) = before ++ [Ready d] ->
     r = Ready d /\
     (t1 - start < 30 * 1000000000 \/
      999999 * (min * (t1 - start)) <= 1000000 * (produced (calls ++ [(t0, t1, r)]) * 1000000000))) /\
  (* within the grace period, at the end of the stream and for fast enough transfers
     nothing is changed *)
  ((forall d, r = Ready d -> d = "" \/ t1 - start < 30 * 1000000000 \/
      1000000 * (min * (t1 - start)) <= 999999 * (produced (calls ++ [(t0, t1, r)]) * 1000000000)) ->
   bitrate_run (bitrate_new min) (calls ++ [(t0, t1, r)]) = before ++ [r]) /\
  (* the only change ever made is a time-out in place of data *)
  (bitrate_run (bitrate_new min) (calls ++ [(t0, t1, r)]) = before ++ [r] \/
   bitrate_run (bitrate_new min) (calls ++ [(t0, t1, r)]) = before ++ [Failed IoTimedOut]).
Proof.
  intros min calls t0 t1 r start F before. change (30 * 1000000000) with grace_period.
  destruct (bitrate_state calls (bitrate_new min)) as (S1 & S2 & S3). cbn [bitrate_new br_min br_read br_start] in *.
  rewrite bitrate_run_app. fold before. cbn [bitrate_run].
  set (s := bitrate_after (bitrate_new min) calls) in *.
  assert (P : forall d, r = Ready d -> produced (calls ++ [(t0, t1, r)]) = produced calls + byte_length d).
  { intros d ->. unfold produced. rewrite map_app, delivered_app. cbn [map snd delivered].
    rewrite sapp_nil_r. change (N.of_nat (String.length ?x)) with (byte_length x). apply byte_length_app. }
  assert (St : forall d, r = Ready d -> match br_start s with Some t => t | None => t0 end = start).
  { intros d ->. rewrite S3. clear - F. revert F. induction calls as [|[[a b] x] calls IH]; cbn.
    - congruence.
    - destruct x; auto. congruence. }
  destruct r as [|k|d]; cbn [bitrate_poll].
  - split; [|split; auto]. intros d Nd E. apply app_inv_head in E. inversion E.
  - split; [|split; auto]. intros d Nd E. apply app_inv_head in E. inversion E.
  - rewrite (St d eq_refl). specialize (P d eq_refl). destruct (byte_length d =? 0) eqn:Z.
    { apply byte_length_zero in Z as ->. split; [|split; auto].
      intros d Nd E. apply app_inv_head in E. inversion E. congruence. }
    rewrite P. cbn [br_read br_min]. rewrite S1, S2. unfold too_slow. cbn [N.add].
    destruct (N.leb_spec grace_period (t1 - start)) as [G|G]; cbn [andb].
    + assert (Nz : 0 < t1 - start) by (unfold grace_period in G; lia).
      destruct (f32_lt _ _) eqn:R.
      * split; [|split; auto].
        { intros d' Nd E. apply app_inv_head in E. inversion E. }
        intros H. exfalso. apply (rate_slow _ _ _ Nz) in R.
        destruct (H d eq_refl) as [->|[H1|H1]]; [discriminate|lia|]. lia.
      * split; [|split; auto]. intros d' Nd E. apply app_inv_head in E. inversion E; subst d'. split; auto.
        right. now apply rate_fast.
    + split; [|split; auto]. intros d' Nd E. apply app_inv_head in E. inversion E; subst d'. auto.
Qed.
Print Assumptions C39_slow_transfers_cut_off.

(** 10 bytes per second demanded: 301 bytes after 30 s pass, 299 do not, and a stall of any
    length is not noticed before the next byte (FIXME #272 in the code). *)
Definition str_of_len (n : nat) : string := String.concat "" (repeat "x" n).
Example C39_case :
  let sec := 1000000000 in
  bitrate_run (bitrate_new 10) [(5, 5, Ready (str_of_len 1)); (0, 5 + 30 * sec, Ready (str_of_len 300))]
  = [Ready (str_of_len 1); Ready (str_of_len 300)] /\
  bitrate_run (bitrate_new 10) [(5, 5, Ready (str_of_len 1)); (0, 5 + 30 * sec, Ready (str_of_len 298))]
  = [Ready (str_of_len 1); Failed IoTimedOut] /\
  bitrate_run (bitrate_new 10) [(5, 5, Ready "x"); (0, 5 + 9000 * sec, Pending); (0, 5 + 9000 * sec, Ready "")]
  = [Ready "x"; Pending; Ready ""].
Proof. vm_compute. repeat split; reflexivity. Qed.

(** The limits of the machine's integers that the statements here and elsewhere speak of. *)
Example C39_integer_limits : u32_max = 2 ^ 32 - 1 /\ u64_max = 2 ^ 64 - 1.
Proof. split; reflexivity. Qed.

(** ** C68 *)

Theorem C68_descriptions_describe :
  forall (C : crypto) (rs : stream) (algs : list hash_alg) (b : bytes),
  contains rs b None ->
  (forall version md, meta_from_reader C rs version algs = Ok md ->
     md_version md = version /\ 1 <= version /\ md_length md = N.of_nat (String.length b) /\
     forall a, lookup a (md_hashes md) = if mem a algs then Some (ring_digest C a b) else None) /\
  (forall td, target_from_reader C rs algs = Ok td ->
     td_length td = N.of_nat (String.length b) /\ td_custom td = None /\
     forall a, lookup a (td_hashes td) = if mem a algs then Some (ring_digest C a b) else None) /\
  (* it succeeds for every non-empty list of known algorithms *)
  (algs <> [] -> (forall a, In a algs -> a = Sha256 \/ a = Sha512) ->
   (exists td, target_from_reader C rs algs = Ok td) /\
   (forall version, 1 <= version -> length_ok u64_max b ->
      exists md, meta_from_reader C rs version algs = Ok md)) /\
  (* and a checked read of the same bytes, however chopped, against it succeeds *)
  (forall td rs', target_from_reader C rs algs = Ok td -> length_ok u64_max b -> contains rs' b None ->
     exists alg v s, hash_preference (td_hashes td) = Ok (alg, v) /\
       safe_new (td_length td) (Some (alg, v)) = Ok s /\ read_to_end C s rs' "" = Ok b).
Proof.
  intros C rs algs b H. pose proof (calculate_spec C rs algs b None H) as S.
  unfold meta_from_reader, target_from_reader. destruct (calculate_hashes C rs algs) as [[size hashes]|e] eqn:CH;
    cbn [rbind].
  - destruct S as (_ & S1 & S2 & S3 & S4). unfold byte_length in S3. split; [|split; [|split]].
    + intros version md. destruct (N.ltb_spec version 1); [discriminate|].
      destruct (u64_max <? size); [discriminate|]. intros E. inversion E; subst. cbn. repeat split; auto.
    + intros td E. inversion E; subst. cbn. auto.
    + intros _ _. split; [eauto|]. intros version V L. destruct (N.ltb_spec version 1); [lia|].
      unfold length_ok in L. destruct (N.ltb_spec u64_max size); [lia|]. eauto.
    + intros td rs' E L H'. inversion E; subst. cbn [td_hashes td_length].
      assert (P : exists alg, hash_preference hashes = Ok (alg, ring_digest C alg b) /\ (alg = Sha256 \/ alg = Sha512)).
      { unfold hash_preference. cbn [hash_alg_prefs hash_preference_loop]. rewrite !S4.
        destruct (mem Sha512 algs) eqn:M5; [eauto|]. destruct (mem Sha256 algs) eqn:M2; [eauto|].
        exfalso. destruct algs as [|a l]; [congruence|].
        apply mem_not_In in M5, M2. destruct a as [| |x]; [apply M2; now left|apply M5; now left|].
        now apply (S2 (HashUnknown x) (or_introl eq_refl) x). }
      destruct P as (alg & -> & A). exists alg, (ring_digest C alg b).
      assert (exists s, safe_new (N.of_nat (String.length b)) (Some (alg, ring_digest C alg b)) = Ok s) as (s & Ns).
      { apply safe_new_ok. intros x v E'. inversion E'; subst. destruct A; discriminate. }
      exists s. split; auto. split; auto. apply (read_to_end_ok C _ _ _ _ _ Ns).
      split; auto. split; [unfold length_ok; lia|]. split; auto. reflexivity.
  - destruct S as [(-> & S)|(k & S & _)]; [|discriminate].
    split; [intros version md; destruct (version <? 1); discriminate|]. split; [discriminate|]. split; [|discriminate].
    intros N1 N2. destruct S as [S|(x & S)]; [contradiction|]. destruct (N2 _ S); discriminate.
Qed.
Print Assumptions C68_descriptions_describe.

Example C68_case :
  contains [Ready "he"; Ready "llo"; Ready ""] "hello" None /\
  target_from_reader toy_crypto [Ready "he"; Ready "llo"; Ready ""] [Sha256; Sha512; Sha256]
  = Ok (mkTargetDesc 5 [(Sha256, "2hello"); (Sha512, "5hello")] None) /\
  meta_from_reader toy_crypto [Ready "he"; Failed IoOther] 1 [Sha256] = Err Opaque.
Proof.
  split; [|vm_compute; split; reflexivity].
  apply (contains_data "he"); [discriminate|]. apply (contains_data "llo"); [discriminate|]. constructor.
Qed.

(** With a value of the caller's the description is the same but for that value, which is
    kept as it is. *)
Theorem C68_custom_descriptions :
  forall (C : crypto) (rs : stream) (algs : list hash_alg) (b : bytes) (custom : list (string * json)),
  contains rs b None ->
  (forall td, target_from_reader_with_custom C rs algs custom = Ok td ->
     td_length td = N.of_nat (String.length b) /\ td_custom td = Some custom /\
     forall a, lookup a (td_hashes td) = if mem a algs then Some (ring_digest C a b) else None) /\
  ((exists td, target_from_reader_with_custom C rs algs custom = Ok td) <->
   algs <> [] /\ forall a, In a algs -> a = Sha256 \/ a = Sha512).
Proof.
  intros C rs algs b custom H. pose proof (calculate_spec C rs algs b None H) as S. unfold target_from_reader_with_custom.
  destruct (calculate_hashes C rs algs) as [[size hashes]|e] eqn:CH; cbn [rbind].
  - destruct S as (_ & S1 & S2 & S3 & S4). split; [intros td E; inversion E; subst; cbn; auto|]. split; [intros _|eauto].
    split; [exact S1|]. intros [| |x] I; auto. exfalso. exact (S2 _ I x eq_refl).
  - split; [discriminate|]. split; [intros [td E]; discriminate|]. intros [N1 N2]. exfalso.
    destruct S as [[_ [S|(x & S)]]|(k & S & _)]; [contradiction| |discriminate]. destruct (N2 _ S); discriminate.
Qed.
Print Assumptions C68_custom_descriptions.
Example C68_custom_case :
  target_from_reader_with_custom toy_crypto [Ready "he"; Ready "llo"] [Sha512] [("arch", JStr "arm")]
  = Ok (mkTargetDesc 5 [(Sha512, "5hello")] (Some [("arch", JStr "arm")])).
Proof. vm_compute. reflexivity. Qed.

(** ** C70 *)

Theorem C70_strongest_hash :
  forall (hashes : list (hash_alg * bytes)),
  (forall v, lookup Sha512 hashes = Some v -> hash_preference hashes = Ok (Sha512, v)) /\
  (forall v, lookup Sha512 hashes = None -> lookup Sha256 hashes = Some v ->
     hash_preference hashes = Ok (Sha256, v)) /\
  (lookup Sha512 hashes = None -> lookup Sha256 hashes = None ->
     hash_preference hashes = Err NoSupportedHashAlgorithm) /\
  (forall a v, hash_preference hashes = Ok (a, v) ->
     lookup a hashes = Some v /\ (a = Sha512 \/ a = Sha256)).
Proof.
  intros hashes. unfold hash_preference. cbn [hash_alg_prefs hash_preference_loop].
  destruct (lookup Sha512 hashes) as [v5|] eqn:L5; destruct (lookup Sha256 hashes) as [v2|] eqn:L2;
    repeat split; intros; try congruence; try (inversion H; subst; auto).
Qed.
Print Assumptions C70_strongest_hash.

Example C70_case :
  hash_preference [(HashUnknown "md5", "m"); (Sha256, "a"); (Sha512, "b")] = Ok (Sha512, "b") /\
  hash_preference [(HashUnknown "md5", "m")] = Err NoSupportedHashAlgorithm.
Proof. vm_compute. split; reflexivity. Qed.
