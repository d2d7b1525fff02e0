(** C85, C86 and C89: constants from type-level numbers, keys in documents, and what debugging prints. *)
From Coq Require Import ZArith.
From Coq Require Import Strings.String.
From Verif Require Import Base Files PFiles Values.

(** * C85 *)

(** The integer types of Rust; [isize] and [usize] have 64 bits, or 32 or 16 on other machines. *)
Definition rust_int (t : ity) : Prop := In (i_bits t) [8; 16; 32; 64; 128]%Z.
(** The types typenum makes: a [PInt] or [NInt] is not zero. *)
Definition well_formed (n : tnum) : Prop := match n with TP u | TN u => uint_val u <> 0%Z | _ => True end.
Definition fits (t : ity) (v : Z) : Prop := (i_min t <= v <= i_max t)%Z.

Lemma pow2_pred b : (1 <= b)%Z -> (2 ^ b = 2 * 2 ^ (b - 1) /\ 0 < 2 ^ (b - 1))%Z.
Proof. intros B. split; [rewrite <- Z.pow_succ_r by lia; f_equal; lia|apply Z.pow_pos_nonneg; lia]. Qed.
Lemma bits_ge t : rust_int t -> (8 <= i_bits t)%Z.
Proof. unfold rust_int. cbn [In]. intros H. lia. Qed.
Lemma wrap_fits t v : rust_int t -> fits t (i_wrap t v).
Proof.
  intros R. apply bits_ge in R. destruct (pow2_pred (i_bits t)) as [E P]; [lia|].
  assert (M := Z.mod_pos_bound (v - i_min t) (2 ^ i_bits t) ltac:(lia)). unfold fits, i_wrap.
  destruct t as [[|] b]; unfold i_min, i_max in *; cbn [i_signed i_bits] in *; lia.
Qed.
Lemma wrap_small t v : rust_int t -> fits t v -> i_wrap t v = v.
Proof.
  intros R F. apply bits_ge in R. destruct (pow2_pred (i_bits t)) as [E P]; [lia|]. unfold fits, i_wrap in *.
  rewrite Z.mod_small; [lia|]. destruct t as [[|] b]; unfold i_min, i_max in *; cbn [i_signed i_bits] in *; lia.
Qed.
Lemma wrap_congr t v w : rust_int t -> ((v - w) mod 2 ^ i_bits t = 0)%Z -> i_wrap t v = i_wrap t w.
Proof.
  intros R H. apply bits_ge in R. destruct (pow2_pred (i_bits t)) as [E P]; [lia|]. unfold i_wrap. f_equal.
  apply Z.mod_divide in H as [q Hq]; [|lia].
  replace (v - i_min t)%Z with (w - i_min t + q * 2 ^ i_bits t)%Z by lia. apply Z.mod_add. lia.
Qed.
Lemma wrap_diff t v : rust_int t -> exists q, (i_wrap t v = v + q * 2 ^ i_bits t)%Z.
Proof.
  intros R. apply bits_ge in R. destruct (pow2_pred (i_bits t)) as [E P]; [lia|].
  exists (- ((v - i_min t) / 2 ^ i_bits t))%Z. unfold i_wrap. rewrite Z.mod_eq by lia. lia.
Qed.
Lemma mod_mult q m : (m <> 0 -> (q * m) mod m = 0)%Z.
Proof. intros M. apply Z.mod_mul, M. Qed.

Ltac modz e := match goal with |- (?x mod _ = 0)%Z => replace x with e by lia end.
Lemma wrap_even t v : rust_int t -> exists h, (i_wrap t (v * 2 ^ 1) = 2 * h)%Z.
Proof.
  intros R. pose proof (bits_ge t R) as B. destruct (wrap_diff t (v * 2 ^ 1)%Z R) as (q & ->).
  destruct (pow2_pred (i_bits t)) as [E P]; [lia|]. exists (v + q * 2 ^ (i_bits t - 1))%Z. rewrite E. change (2 ^ 1)%Z with 2%Z. lia.
Qed.
Lemma odd_max t : rust_int t -> exists h, (i_max t = 2 * h + 1)%Z.
Proof.
  intros R. pose proof (bits_ge t R) as B. destruct (pow2_pred (i_bits t)) as [E P]; [lia|].
  destruct (pow2_pred (i_bits t - 1)) as [E2 P2]; [lia|].
  destruct t as [[|] b]; unfold i_max; cbn [i_signed i_bits] in *.
  - exists (2 ^ (b - 1 - 1) - 1)%Z. lia.
  - exists (2 ^ (b - 1) - 1)%Z. lia.
Qed.

Lemma uint_const_wrap t u : rust_int t -> uint_const t u = Some (i_wrap t (uint_val u)).
Proof.
  intros R. pose proof (bits_ge t R) as B. assert (Pn : (2 ^ i_bits t <> 0)%Z) by (destruct (pow2_pred (i_bits t)); lia).
  induction u as [|r IH b].
  - cbn [uint_const uint_val]. f_equal. symmetry. apply wrap_small; [assumption|]. destruct (pow2_pred (i_bits t)) as [E P]; [lia|].
    unfold fits. destruct t as [[|] w]; unfold i_min, i_max; cbn [i_signed i_bits] in *; lia.
  - cbn [uint_const]. rewrite IH. cbn [obindz]. unfold i_shl. replace (0 <=? 1)%Z with true by reflexivity.
    replace (1 <? i_bits t)%Z with true by (symmetry; apply Z.ltb_lt; lia). cbn [andb obindz].
    destruct (wrap_even t (i_wrap t (uint_val r)) R) as (h & Eh). destruct (odd_max t R) as (k & Ek).
    pose proof (wrap_fits t (i_wrap t (uint_val r) * 2 ^ 1) R) as [F1 F2]. unfold i_add, i_checked.
    set (v := i_wrap t (i_wrap t (uint_val r) * 2 ^ 1)) in *.
    assert (F : fits t (v + (if b then 1 else 0))%Z) by (unfold fits; destruct b; lia).
    replace (_ && _)%bool with true by (symmetry; apply andb_true_intro; unfold fits in F; split; apply Z.leb_le; lia).
    f_equal. rewrite <- (wrap_small t (v + _) R F). apply wrap_congr; [assumption|].
    destruct (wrap_diff t (i_wrap t (uint_val r) * 2 ^ 1) R) as (q & Eq). fold v in Eq.
    destruct (wrap_diff t (uint_val r) R) as (q' & Eq'). rewrite Eq, Eq'. cbn [uint_val]. change (2 ^ 1)%Z with 2%Z.
    match goal with |- (?x mod _ = 0)%Z => replace x with ((q + 2 * q') * 2 ^ i_bits t)%Z by lia end. apply mod_mult, Pn.
Qed.

Lemma uint_nonneg u : (0 <= uint_val u)%Z.
Proof. induction u as [|r IH b]; cbn [uint_val]; [lia|destruct b; lia]. Qed.
Lemma unsigned_int t : rust_int t -> rust_int (i_unsigned t).
Proof. exact (fun H => H). Qed.

(** What the constant is, whatever the number *)
Definition compiles (t : ity) (n : tnum) : Prop := match n with TN _ => i_signed t = true | _ => True end.
Lemma const_wrap t n : rust_int t -> compiles t n -> typenum2const t n = Some (i_wrap t (num_val n)).
Proof.
  intros R C. pose proof (bits_ge t R) as B. destruct (pow2_pred (i_bits t)) as [E P]; [lia|].
  destruct n as [u| |u|u]; cbn [typenum2const num_val].
  - apply uint_const_wrap, R.
  - f_equal. symmetry. apply (wrap_small t 0 R). unfold fits. destruct t as [[|] w]; unfold i_min, i_max; cbn [i_signed i_bits] in *; lia.
  - unfold pos_const. rewrite uint_const_wrap by assumption. cbn [obindz]. destruct (i_signed t) eqn:Es.
    + f_equal. apply wrap_congr; [assumption|]. destruct (wrap_diff (i_unsigned t) (uint_val u) R) as (q & ->). cbn [i_unsigned i_bits].
      modz (q * 2 ^ i_bits t)%Z. apply mod_mult. lia.
    + f_equal. unfold i_unsigned. destruct t as [s b]. cbn [i_signed i_bits] in *. now subst s.
  - unfold neg_const. cbn [compiles] in C. rewrite C. rewrite uint_const_wrap by assumption. cbn [obindz].
    destruct (wrap_diff (i_unsigned t) (uint_val u) R) as (q & Eq). cbn [i_unsigned i_bits] in Eq.
    pose proof (wrap_fits (i_unsigned t) (uint_val u) R) as Fu. set (v := i_wrap (i_unsigned t) (uint_val u)) in *.
    unfold fits, i_min, i_max in Fu. cbn [i_unsigned i_signed i_bits] in Fu.
    destruct (Z.eqb_spec v (i_top t)) as [Ev|Nv].
    + f_equal. assert (Fm : fits t (i_min t)) by (unfold fits, i_min, i_max; rewrite C; lia).
      rewrite <- (wrap_small t (i_min t) R Fm) at 1. apply wrap_congr; [assumption|]. unfold i_min. rewrite C. unfold i_top in Ev.
      modz ((- q) * 2 ^ i_bits t)%Z. apply mod_mult. lia.
    + destruct (wrap_diff t v R) as (q2 & E2). pose proof (wrap_fits t v R) as F2. unfold i_neg, i_checked.
      assert (Nm : i_wrap t v <> i_min t).
      { intros X. apply Nv. unfold i_top. unfold i_min in X. rewrite C in X. rewrite X in E2.
        assert (q2 = -1 \/ q2 = 0 \/ q2 <= -2 \/ 1 <= q2)%Z as [?|[?|[?|?]]] by lia; nia. }
      unfold fits in F2. replace (_ && _)%bool with true.
      2: { symmetry. apply andb_true_intro. unfold i_min, i_max in *. rewrite C in *. split; apply Z.leb_le; lia. }
      f_equal. assert (Ff : fits t (- i_wrap t v)) by (unfold fits, i_min, i_max in *; rewrite C in *; lia).
      rewrite <- (wrap_small t (- i_wrap t v) R Ff). apply wrap_congr; [assumption|]. rewrite E2, Eq.
      modz ((- q - q2) * 2 ^ i_bits t)%Z. apply mod_mult. lia.
Qed.

(** C85.  The full property: a type-level number that is turned into a constant has the same value, or the program does not
    compile.  For a number that the integer type can hold this is true. *)
Theorem C85_constant_of_number_partial : forall t n, rust_int t -> well_formed n -> fits t (num_val n) ->
  typenum2const t n = Some (num_val n).
Proof.
  intros t n R W F. rewrite const_wrap; [f_equal; apply wrap_small; assumption|assumption|].
  destruct n as [| | |u]; cbn [compiles]; try exact I. cbn [well_formed num_val] in *. pose proof (uint_nonneg u).
  destruct (i_signed t) eqn:Es; [reflexivity|]. unfold fits, i_min in F. rewrite Es in F. lia.
Qed.
Print Assumptions C85_constant_of_number_partial.

(** Of a number that it cannot hold, the constant is not refused: the bits that do not fit are cut off, and what remains is
    another number. *)
Theorem C85_too_big_refuted : forall t n, rust_int t -> well_formed n -> ~ fits t (num_val n) ->
  compiles t n ->
  exists v, typenum2const t n = Some v /\ v <> num_val n /\ fits t v /\ ((v - num_val n) mod 2 ^ i_bits t = 0)%Z.
Proof.
  intros t n R W F C. exists (i_wrap t (num_val n)). split; [apply const_wrap; assumption|].
  pose proof (wrap_fits t (num_val n) R) as Fw. split; [intros E; rewrite E in Fw; contradiction|]. split; [assumption|].
  destruct (wrap_diff t (num_val n) R) as (q & ->). modz (q * 2 ^ i_bits t)%Z. apply mod_mult.
  apply bits_ge in R. destruct (pow2_pred (i_bits t)) as [? ?]; lia.
Qed.
Print Assumptions C85_too_big_refuted.

(** Only negative numbers as constants of an unsigned type are refused. *)
Theorem C85_negative_unsigned : forall t u, i_signed t = false -> typenum2const t (TN u) = None.
Proof. intros t u E. cbn [typenum2const]. unfold neg_const. now rewrite E. Qed.
Print Assumptions C85_negative_unsigned.

Definition ty_u8 : ity := {| i_signed := false; i_bits := 8 |}.
Definition ty_i8 : ity := {| i_signed := true; i_bits := 8 |}.
Definition t128 : tuint := UInt (UInt (UInt (UInt (UInt (UInt (UInt (UInt UTerm true) false) false) false) false) false) false) false.
(** Non-vacuity: 128 as [u8] and -128 as [i8] are exact; 256 as [u8] is 0, 128 as [i8] is -128, -129 as [i8] is 127. *)
Example C85_witness : rust_int ty_u8 /\ rust_int ty_i8 /\ uint_val t128 = 128%Z /\
  typenum2const ty_u8 (TU t128) = Some 128%Z /\ typenum2const ty_i8 (TN t128) = Some (-128)%Z /\
  typenum2const ty_u8 (TU (UInt t128 false)) = Some 0%Z /\ typenum2const ty_i8 (TP t128) = Some (-128)%Z /\
  ~ fits ty_u8 (num_val (TU (UInt t128 false))).
Proof. repeat split; try reflexivity; try (cbn; tauto). unfold fits. cbn. lia. Qed.

(** * C86 *)

(** A key that was written to a document is read back as it was, whatever its size, also as the size of the reader is what
    the writer had. *)
Theorem C86_roundtrip : forall d, deserialize (length d) (serialize d) = Some d.
Proof. intros d. unfold deserialize, serialize, visit. rewrite b64_data_text, Nat.eqb_refl. reflexivity. Qed.
Print Assumptions C86_roundtrip.

(** Nothing else is read as that key: a document is accepted only if it has exactly the text that writing the key gives, and the
    key has exactly the wanted size. *)
Theorem C86_only_that_text : forall n i d, deserialize n i = Some d <-> length d = n /\ i = serialize d.
Proof.
  intros n i d. split.
  - unfold deserialize, visit. destruct i as [t|]; [|discriminate]. destruct (b64_data t) as [d'|] eqn:E; [|discriminate].
    destruct (Nat.eqb_spec (length d') n) as [L|]; cbn [negb]; [|discriminate]. intros H. assert (d' = d) by congruence. subst d'.
    split; [assumption|]. unfold serialize. f_equal. apply b64_text_data, E.
  - intros [<- ->]. apply C86_roundtrip.
Qed.
Print Assumptions C86_only_that_text.

(** The text is Base64 as the specification of C68 has it. *)
Theorem C86_text_is_base64 : forall d, exists t, serialize d = IStr t /\ is_base64 t d.
Proof. intros d. exists (b64_text d). split; [reflexivity|apply C68_text_is_base64]. Qed.
Print Assumptions C86_text_is_base64.

(** A key of another size is refused. *)
Theorem C86_other_size : forall n d, length d <> n -> deserialize n (serialize d) = None.
Proof.
  intros n d L. destruct (deserialize n (serialize d)) as [x|] eqn:E; [|reflexivity].
  apply C86_only_that_text in E as [Lx Ex]. unfold serialize in Ex. assert (Et : b64_text d = b64_text x) by congruence.
  pose proof (b64_data_text d) as A. rewrite Et, b64_data_text in A. congruence.
Qed.
Print Assumptions C86_other_size.

(** In contrast to a key that is loaded from a file of Base64 (C68), a shorter key is not completed with what was in the buffer:
    the two readers differ. *)
Theorem C86_stricter_than_files : forall junk d out, d <> [] -> length d < length out ->
  b64_decode junk (b64_text d) out = Some (d ++ skipn (length d) out) /\ deserialize (length out) (serialize d) = None.
Proof.
  intros junk d out N L. split; [|apply C86_other_size; lia]. unfold b64_decode. rewrite b64_data_text.
  replace (Nat.leb (length d) (length out)) with true by (symmetry; apply Nat.leb_le; lia).
  destruct (b64_text d) eqn:E; [|reflexivity]. pose proof (b64_data_text d) as A. rewrite E in A. cbn in A. congruence.
Qed.
Print Assumptions C86_stricter_than_files.

Example C86_witness : deserialize 2 (IStr (map n2b [97; 71; 107; 61]%N)) = Some (map n2b [104; 105]%N) /\
  deserialize 2 (IStr (map n2b [97; 71; 108; 61]%N)) = None /\ deserialize 3 (IStr (map n2b [97; 71; 107; 61]%N)) = None.
Proof. repeat split; vm_compute; reflexivity. Qed.

(** * C89 *)

(** What is printed of a secret, or of a value in [NullDebug], does not depend on the value. *)
Theorem C89_secrets_are_not_printed : forall v name, debug_secret v = list_byte_of_string "<SECRET>" /\
  debug_null name v = list_byte_of_string "NullDebug<" ++ name ++ list_byte_of_string ">".
Proof. intros. split; reflexivity. Qed.
Print Assumptions C89_secrets_are_not_printed.

(** The text for a public value.  A byte is one or two of the digits 0-9a-f, the text of the numeral in base 16. *)
Definition numeral (b : byte) (t : bytes) : Prop :=
  exists ds, t = map (fun d => nth (N.to_nat d) (list_byte_of_string "0123456789abcdef") x00) ds /\ Forall (fun d => d < 16)%N ds /\
    ((exists d, ds = [d] /\ b2n b = d) \/ exists c d, ds = [c; d] /\ (0 < c)%N /\ b2n b = (16 * c + d)%N).
Definition numerals (v t : bytes) : Prop := exists ts, Forall2 numeral v ts /\ t = concat ts.

Lemma digit_text d : (d < 16)%N -> hex_digit d = nth (N.to_nat d) (list_byte_of_string "0123456789abcdef") x00.
Proof.
  intros L. assert (K : N.to_nat d < 16) by lia. rewrite <- (N2Nat.id d) at 1. generalize (N.to_nat d) K. clear.
  intros n K. do 16 (destruct n as [|n]; [reflexivity|]). lia.
Qed.
Lemma hex_numeral b : numeral b (hex_byte b).
Proof.
  pose proof (b2n_lt b) as Lb. unfold hex_byte. cbv zeta. destruct (N.ltb_spec (b2n b) 16) as [S|S].
  - exists [b2n b]. cbn [map]. rewrite digit_text by exact S. split; [reflexivity|]. split; [now repeat constructor|].
    left. now exists (b2n b).
  - assert (D : (b2n b / 16 < 16)%N) by (apply N.div_lt_upper_bound; lia).
    assert (M : (b2n b mod 16 < 16)%N) by (apply N.mod_lt; lia).
    exists [b2n b / 16; b2n b mod 16]%N. cbn [map]. rewrite !digit_text by assumption. split; [reflexivity|].
    split; [now repeat constructor|]. right. exists (b2n b / 16)%N, (b2n b mod 16)%N. split; [reflexivity|].
    split; [apply N.div_str_pos; lia|apply N.div_mod'].
Qed.
Lemma hex_numerals v : numerals v (flat_map hex_byte v).
Proof.
  exists (map hex_byte v). split; [|apply flat_map_concat_map]. induction v as [|b v IH]; constructor; [apply hex_numeral|exact IH].
Qed.
Theorem C89_public_text : forall v, exists t, debug_public v = list_byte_of_string "[{}]=" ++ t /\
  (length v <= 64 -> numerals v t) /\
  (64 < length v -> exists a b, t = a ++ list_byte_of_string "…" ++ b /\ numerals (firstn 32 v) a /\ numerals (skipn (length v - 32) v) b).
Proof.
  intros v. unfold debug_public. eexists. split; [reflexivity|]. split; intros L.
  - destruct (Nat.ltb_spec 64 (length v)); [lia|]. apply hex_numerals.
  - destruct (Nat.ltb_spec 64 (length v)); [|lia]. exists (flat_map hex_byte (firstn 32 v)), (flat_map hex_byte (skipn (length v - 32) v)).
    split; [reflexivity|]. split; apply hex_numerals.
Qed.
Print Assumptions C89_public_text.

(** The full property for public values: two values of the same size that fit are printed as the same text only if they are
    equal.  Not so: bytes are printed without zeros in front. *)
Theorem C89_public_refuted : exists v w, v <> w /\ length v = length w /\ length v <= 64 /\ debug_public v = debug_public w.
Proof. exists (map n2b [1; 17]%N), (map n2b [17; 1]%N). repeat split; vm_compute; try lia; congruence. Qed.
Print Assumptions C89_public_refuted.

(** It is so if no byte is below 16. *)
Lemma hex_digit_inj a b : (a < 16)%N -> (b < 16)%N -> hex_digit a = hex_digit b -> a = b.
Proof.
  intros A B H. apply (f_equal b2n) in H. unfold hex_digit in H. rewrite !b2n_n2b in H.
  destruct (N.ltb_spec a 10), (N.ltb_spec b 10); rewrite !N.mod_small in H by lia; lia.
Qed.
Lemma hex_two b : (16 <= b2n b)%N -> hex_byte b = [hex_digit (b2n b / 16); hex_digit (b2n b mod 16)]%N.
Proof. intros H. unfold hex_byte. cbv zeta. destruct (N.ltb_spec (b2n b) 16); [lia|reflexivity]. Qed.
Lemma hex_all_inj v : forall w, Forall (fun b => 16 <= b2n b)%N v -> Forall (fun b => 16 <= b2n b)%N w ->
  flat_map hex_byte v = flat_map hex_byte w -> v = w.
Proof.
  induction v as [|a v IH]; intros w Fv Fw H.
  - destruct w as [|b w]; [reflexivity|]. inversion Fw as [|? ? Fb Fr]. subst. cbn [flat_map] in H. rewrite hex_two in H by assumption. discriminate.
  - inversion Fv as [|? ? Fa Fr]. subst. destruct w as [|b w]; [cbn [flat_map] in H; rewrite hex_two in H by assumption; discriminate|].
    inversion Fw as [|? ? Fb Fs]. subst. cbn [flat_map] in H. rewrite !hex_two in H by assumption. cbn [List.app] in H.
    assert (H1 : hex_digit (b2n a / 16) = hex_digit (b2n b / 16)) by congruence.
    assert (H2 : hex_digit (b2n a mod 16) = hex_digit (b2n b mod 16)) by congruence.
    assert (H3 : flat_map hex_byte v = flat_map hex_byte w) by congruence.
    pose proof (b2n_lt a). pose proof (b2n_lt b).
    apply hex_digit_inj in H1; [|apply N.div_lt_upper_bound; lia|apply N.div_lt_upper_bound; lia].
    apply hex_digit_inj in H2; [|apply N.mod_lt; lia|apply N.mod_lt; lia].
    f_equal; [|apply IH; assumption]. rewrite <- (n2b_b2n a), <- (n2b_b2n b). f_equal.
    rewrite (N.div_mod' (b2n a) 16), (N.div_mod' (b2n b) 16). congruence.
Qed.
Theorem C89_public_distinct_partial : forall v w, length v <= 64 -> length w <= 64 ->
  Forall (fun b => 16 <= b2n b)%N v -> Forall (fun b => 16 <= b2n b)%N w -> debug_public v = debug_public w -> v = w.
Proof.
  intros v w Lv Lw Fv Fw H. unfold debug_public in H.
  destruct (Nat.ltb_spec 64 (length v)); [lia|]. destruct (Nat.ltb_spec 64 (length w)); [lia|].
  apply app_inv_head in H. apply hex_all_inj; assumption.
Qed.
Print Assumptions C89_public_distinct_partial.

(** Of a long value, such as a public key of Classic McEliece, the first and the last 32 bytes are all that is printed, in at
    most 136 bytes of text. *)
Lemma hex_len l : length (flat_map hex_byte l) <= 2 * length l.
Proof.
  induction l as [|a l IH]; [reflexivity|]. cbn [flat_map length]. rewrite app_length. unfold hex_byte at 1. cbv zeta.
  destruct (N.ltb (b2n a) 16); cbn [length]; lia.
Qed.
Theorem C89_long_values_are_abridged : forall v, 64 < length v ->
  length (debug_public v) <= 136 /\
  forall w, 64 < length w -> firstn 32 v = firstn 32 w -> skipn (length v - 32) v = skipn (length w - 32) w -> debug_public w = debug_public v.
Proof.
  intros v L. split.
  - unfold debug_public. destruct (Nat.ltb_spec 64 (length v)); [|lia]. rewrite !app_length.
    pose proof (hex_len (firstn 32 v)) as A. pose proof (hex_len (skipn (length v - 32) v)) as B.
    rewrite firstn_length in A. rewrite skipn_length in B.
    change (length debug_head) with 5. change (length ellipsis) with 3. lia.
  - intros w Lw E1 E2. unfold debug_public. destruct (Nat.ltb_spec 64 (length v)); [|lia]. destruct (Nat.ltb_spec 64 (length w)); [|lia].
    rewrite <- E1, <- E2. reflexivity.
Qed.
Print Assumptions C89_long_values_are_abridged.

(** Non-vacuity, with the value of the example in the documentation (debug.rs 22-23): "[{}]=145376" *)
Example C89_witness : debug_public (map n2b [1; 4; 5; 3; 7; 6]%N) = map n2b [91; 123; 125; 93; 61; 49; 52; 53; 51; 55; 54]%N /\
  debug_public (map n2b [255; 16]%N) = map n2b [91; 123; 125; 93; 61; 102; 102; 49; 48]%N.
Proof. split; vm_compute; reflexivity. Qed.
