(** C17: byte arrays as little-endian integers, independent of the
    implementation: the integer value of a byte array is the sum of
    [byte_i * 256^i]. *)
From Verif Require Import Base ConstTime.

(** Specification: the little-endian integer, as an explicit sum over the
    positions. *)
Fixpoint le_value_from (i : N) (l : list byte) : N :=
  match l with
  | [] => 0
  | b :: l' => Byte.to_N b * 256 ^ i + le_value_from (i + 1) l'
  end.
Definition le_value (l : list byte) : N := le_value_from 0 l.

Lemma le_value_from_dec l i : le_value_from i l = (256 ^ i * le_dec l)%N.
Proof.
  revert i; induction l as [|b l IH]; intros i; cbn [le_value_from le_dec].
  - lia.
  - rewrite IH, N.add_1_r, N.pow_succ_r'. unfold b2n. lia.
Qed.

Lemma le_value_dec l : le_value l = le_dec l.
Proof. unfold le_value. rewrite le_value_from_dec. change (256 ^ 0)%N with 1%N. lia. Qed.

(** [increment] adds one modulo 256^n and keeps the length. *)
Theorem C17_increment : forall v : list byte,
  length (increment v) = length v /\
  le_value (increment v) = ((le_value v + 1) mod 256 ^ N.of_nat (length v))%N.
Proof.
  intros v. rewrite !le_value_dec. split; [apply increment_length|apply increment_dec].
Qed.
Print Assumptions C17_increment.

(** [compare] is the order of little-endian integers; the assertion fails
    exactly on different lengths. *)
Theorem C17_compare : forall a b : list byte,
  (length a <> length b -> compare a b = None) /\
  (length a = length b ->
     (le_value a < le_value b -> compare a b = Some (-1)%Z)%N /\
     (le_value a = le_value b -> compare a b = Some 0%Z) /\
     (le_value a > le_value b -> compare a b = Some 1%Z)%N).
Proof.
  intros a b. rewrite !le_value_dec. split; [apply compare_none|].
  intros L. rewrite compare_spec by assumption.
  destruct (N.compare_spec (le_dec a) (le_dec b)); repeat split; intros; try lia; reflexivity.
Qed.
Print Assumptions C17_compare.

Theorem C17_compare_zero_iff_equal : forall a b : list byte,
  compare a b = Some 0%Z <-> a = b.
Proof.
  intros a b. split.
  - intros H. destruct (Nat.eq_dec (length a) (length b)) as [L|L].
    + rewrite compare_spec in H by assumption.
      destruct (N.compare_spec (le_dec a) (le_dec b)) as [E|E|E]; try discriminate.
      now apply le_dec_inj.
    + now rewrite compare_none in H.
  - intros <-. rewrite compare_spec by reflexivity. now rewrite N.compare_refl.
Qed.
Print Assumptions C17_compare_zero_iff_equal.

Theorem C17_memcmp : forall a b : list byte, memcmp a b = true <-> a = b.
Proof. exact memcmp_spec. Qed.
Print Assumptions C17_memcmp.

(** [xor] is defined exactly on equal lengths, works bytewise and undoes
    itself. *)
Theorem C17_xor : forall src dst : list byte,
  (length src <> length dst -> xor src dst = None) /\
  (length src = length dst ->
     exists out, xor src dst = Some out /\
       length out = length dst /\
       xor src out = Some dst /\
       forall i x y, nth_error src i = Some x -> nth_error dst i = Some y ->
         exists z, nth_error out i = Some z /\
                   Byte.to_N z = N.lxor (Byte.to_N x) (Byte.to_N y)).
Proof.
  intros s d. unfold xor. split; intros L.
  - now rewrite (proj2 (Nat.eqb_neq _ _) L).
  - rewrite L, Nat.eqb_refl. eexists; split; [reflexivity|].
    rewrite xor_loop_length, Nat.eqb_refl by assumption.
    repeat split.
    + now rewrite xor_loop_involutive.
    + intros i x y Hx Hy. exact (xor_loop_nth s d i x y L Hx Hy).
Qed.
Print Assumptions C17_xor.

(** Concrete cases. *)
Example increment_carry :
  increment [xff; xff; x00; x07] = [x00; x00; x01; x07].
Proof. reflexivity. Qed.
Example increment_wraps : increment [xff; xff] = [x00; x00].
Proof. reflexivity. Qed.
Example compare_high_byte_wins : compare [xff; x00; x01] [x00; x00; x02] = Some (-1)%Z.
Proof. reflexivity. Qed.
