(** Model of the crate [constant-time]: increment, compare, memcmp, xor.
    Simplification everywhere: [black_box] and volatile reads are the identity. *)
From Verif Require Import Base.

(** constant-time/src/increment.rs:51-58, loop body of [increment] with the
    running carry.  [overflowing_add] on u8: wrapped sum and carry bit. *)
Fixpoint increment_loop (carry : N) (v : bytes) : bytes :=
  match v with
  | [] => []
  | b :: v' =>
      let sum := (b2n b + carry)%N in
      n2b sum :: increment_loop (if (256 <=? sum)%N then 1 else 0) v'
  end.

(** constant-time/src/increment.rs:51-58 [increment]. *)
Definition increment (v : bytes) : bytes := increment_loop 1 v.

(** constant-time/src/compare.rs:29-37, loop body of [memcmp_le].  The i32 values
    stay between -255 and 255, so Z with the two's complement operations
    [Z.land], [Z.lnot], [Z.shiftr] is exact. *)
Definition memcmp_step (res : Z) (x y : byte) : Z :=
  let diff := (Z.of_N (b2n x) - Z.of_N (b2n y))%Z in
  Z.lor (Z.land res (Z.shiftr (Z.land (diff - 1) (Z.lnot diff)) 8)) diff.

(** constant-time/src/compare.rs 29-37, the loop of [memcmp_le] over both slices *)
Fixpoint memcmp_loop (res : Z) (a b : bytes) : Z :=
  match a, b with
  | x :: a', y :: b' => memcmp_loop (memcmp_step res x y) a' b'
  | _, _ => res
  end.

(** constant-time/src/compare.rs:29-37 [memcmp_le]; both arguments have [len]
    elements. *)
Definition memcmp_le (a b : bytes) : Z :=
  let res := memcmp_loop 0 a b in
  (Z.shiftr (res - 1) 8 + Z.shiftr res 8 + 1)%Z.

(** constant-time/src/compare.rs:91-94 [compare]; [None] is the failing
    [assert!] on the lengths. *)
Definition compare (a b : bytes) : option Z :=
  if Nat.eqb (length a) (length b) then Some (memcmp_le a b) else None.

(** constant-time/src/memcmp.rs:25-27 [memcmp].  [memsec::memeq] is modelled as
    an accumulating xor/or over the bytes. *)
Fixpoint memeq_loop (acc : N) (a b : bytes) : N :=
  match a, b with
  | x :: a', y :: b' => memeq_loop (N.lor acc (N.lxor (b2n x) (b2n y))) a' b'
  | _, _ => acc
  end.
Definition memcmp (a b : bytes) : bool :=
  Nat.eqb (length a) (length b) && N.eqb (memeq_loop 0 a b) 0.

(** constant-time/src/xor.rs:40-47 [xor(src).to(dst)]; [None] is the failing
    [assert!] on the lengths. *)
Fixpoint xor_loop (src dst : bytes) : bytes :=
  match src, dst with
  | s :: src', d :: dst' => n2b (N.lxor (b2n d) (b2n s)) :: xor_loop src' dst'
  | _, _ => dst
  end.
Definition xor (src dst : bytes) : option bytes :=
  if Nat.eqb (length src) (length dst) then Some (xor_loop src dst) else None.

(** * Facts *)

Lemma increment_loop_length c v : length (increment_loop c v) = length v.
Proof. revert c; induction v; intros; simpl; auto. Qed.

Lemma increment_length v : length (increment v) = length v.
Proof. apply increment_loop_length. Qed.

Lemma increment_loop_dec c v :
  (c <= 1)%N ->
  le_dec (increment_loop c v) = ((le_dec v + c) mod pow256 (length v))%N.
Proof.
  revert c; induction v as [|b v IH]; intros c Hc.
  - change (pow256 (length [])) with 1%N. now rewrite N.mod_1_r.
  - cbn [increment_loop le_dec length]. rewrite b2n_n2b.
    pose proof (b2n_lt b) as Hb. pose proof (pow256_pos (length v)) as Hp.
    rewrite pow256_S.
    destruct (N.leb_spec 256 (b2n b + c)) as [Hge|Hlt].
    + rewrite IH by lia.
      assert (b2n b + c = 256)%N as E by lia.
      rewrite E. change (256 mod 256)%N with 0%N.
      replace (b2n b + 256 * le_dec v + c)%N with (256 * (le_dec v + 1))%N by lia.
      rewrite N.mul_mod_distr_l by lia. lia.
    + rewrite IH by lia.
      rewrite N.mod_small by lia.
      replace (b2n b + 256 * le_dec v + c)%N
        with ((b2n b + c) + 256 * le_dec v)%N by lia.
      rewrite N.mod_mul_r by lia.
      replace ((b2n b + c + 256 * le_dec v) mod 256)%N with (b2n b + c)%N.
      2:{ rewrite (N.mul_comm 256), N.mod_add by lia. now rewrite N.mod_small. }
      replace ((b2n b + c + 256 * le_dec v) / 256)%N with (le_dec v).
      2:{ rewrite (N.mul_comm 256), N.div_add by lia. rewrite N.div_small; lia. }
      now rewrite N.add_0_r.
Qed.

Lemma increment_dec v :
  le_dec (increment v) = ((le_dec v + 1) mod pow256 (length v))%N.
Proof. apply increment_loop_dec. lia. Qed.

Lemma small_nonneg_shiftr8 z : (0 <= z < 256 -> Z.shiftr z 8 = 0)%Z.
Proof.
  intros H. rewrite Z.shiftr_div_pow2 by lia. apply Z.div_small. exact H.
Qed.

Lemma small_neg_shiftr8 z : (-256 <= z < 0 -> Z.shiftr z 8 = -1)%Z.
Proof.
  intros H. rewrite Z.shiftr_div_pow2 by lia. change (2 ^ 8)%Z with 256%Z.
  symmetry. apply Z.div_unique_pos with (r := (z + 256)%Z); lia.
Qed.

Lemma land_nonneg_lt256 a b : (0 <= a < 256 -> 0 <= Z.land a b < 256)%Z.
Proof.
  intros H.
  assert (0 <= Z.land a b)%Z by (apply Z.land_nonneg; lia).
  split; [assumption|].
  replace a with (Z.land a (Z.ones 8)).
  - rewrite <- Z.land_assoc, (Z.land_comm (Z.ones 8)), Z.land_assoc.
    rewrite Z.land_ones by lia. apply Z.mod_pos_bound. lia.
  - rewrite Z.land_ones by lia. apply Z.mod_small. exact H.
Qed.

Lemma memcmp_step_spec res x y :
  memcmp_step res x y =
  if byte_eqb x y then res else (Z.of_N (b2n x) - Z.of_N (b2n y))%Z.
Proof.
  unfold memcmp_step.
  pose proof (b2n_lt x). pose proof (b2n_lt y).
  set (d := (Z.of_N (b2n x) - Z.of_N (b2n y))%Z).
  assert (-256 < d < 256)%Z as Hd by (subst d; lia).
  destruct (byte_eqb x y) eqn:E.
  - apply byte_eqb_eq in E. subst y.
    assert (d = 0)%Z as -> by (subst d; lia).
    change (Z.land (0 - 1) (Z.lnot 0)) with (-1)%Z.
    change (Z.shiftr (-1) 8) with (-1)%Z.
    now rewrite Z.land_m1_r, Z.lor_0_r.
  - assert (d <> 0)%Z as Hne.
    { intros Z0. assert (b2n x = b2n y) as F by (subst d; lia).
      apply b2n_inj in F. apply byte_eqb_eq in F. congruence. }
    assert (Z.shiftr (Z.land (d - 1) (Z.lnot d)) 8 = 0)%Z as ->.
    { apply small_nonneg_shiftr8.
      destruct (Z.lt_trichotomy d 0) as [L|[L|L]]; [|lia|].
      - rewrite Z.land_comm. apply land_nonneg_lt256. unfold Z.lnot. lia.
      - apply land_nonneg_lt256. lia. }
    now rewrite Z.land_0_r, Z.lor_0_l.
Qed.

Lemma memcmp_loop_spec a b res :
  length a = length b ->
  (-256 < res < 256)%Z ->
  let r := memcmp_loop res a b in
  (-256 < r < 256)%Z /\
  match (le_dec a ?= le_dec b)%N with
  | Lt => (r < 0)%Z
  | Gt => (r > 0)%Z
  | Eq => r = res
  end.
Proof.
  revert b res; induction a as [|x a IH]; intros [|y b] res L Hres r;
    try discriminate.
  - subst r. simpl. easy.
  - subst r. cbn [memcmp_loop le_dec]. rewrite memcmp_step_spec.
    pose proof (b2n_lt x). pose proof (b2n_lt y).
    injection L as L.
    destruct (byte_eqb x y) eqn:E.
    + apply byte_eqb_eq in E. subst y.
      destruct (IH b res L Hres) as [B C]. split; [exact B|].
      destruct (N.compare_spec (le_dec a) (le_dec b)) as [F|F|F];
      destruct (N.compare_spec (b2n x + 256 * le_dec a) (b2n x + 256 * le_dec b));
        try lia; assumption.
    + assert (b2n x <> b2n y) as Hne.
      { intros F. apply b2n_inj in F. apply byte_eqb_eq in F. congruence. }
      destruct (IH b (Z.of_N (b2n x) - Z.of_N (b2n y))%Z L) as [B C]; [lia|].
      split; [exact B|].
      destruct (N.compare_spec (le_dec a) (le_dec b)) as [F|F|F];
      destruct (N.compare_spec (b2n x + 256 * le_dec a) (b2n y + 256 * le_dec b));
        try lia.
Qed.

Lemma memcmp_le_spec a b :
  length a = length b ->
  memcmp_le a b =
  match (le_dec a ?= le_dec b)%N with Lt => -1 | Eq => 0 | Gt => 1 end%Z.
Proof.
  intros L. unfold memcmp_le.
  destruct (memcmp_loop_spec a b 0 L ltac:(lia)) as [B C].
  set (r := memcmp_loop 0 a b) in *.
  destruct (le_dec a ?= le_dec b)%N.
  - rewrite C. reflexivity.
  - rewrite !small_neg_shiftr8 by lia. reflexivity.
  - rewrite !small_nonneg_shiftr8 by lia. reflexivity.
Qed.

Lemma compare_spec a b :
  length a = length b ->
  compare a b =
  Some (match (le_dec a ?= le_dec b)%N with Lt => -1 | Eq => 0 | Gt => 1 end)%Z.
Proof.
  intros L. unfold compare. rewrite L, Nat.eqb_refl. f_equal.
  now apply memcmp_le_spec.
Qed.

Lemma compare_none a b : length a <> length b -> compare a b = None.
Proof. intros L. unfold compare. now rewrite (proj2 (Nat.eqb_neq _ _) L). Qed.

Lemma memeq_loop_zero acc a b :
  length a = length b ->
  (memeq_loop acc a b = 0%N <-> acc = 0%N /\ a = b).
Proof.
  revert acc b; induction a as [|x a IH]; intros acc [|y b] L; try discriminate.
  - simpl. easy.
  - injection L as L. cbn [memeq_loop]. rewrite IH by assumption.
    rewrite N.lor_eq_0_iff, N.lxor_eq_0_iff. split.
    + intros [[A B] ->]. apply b2n_inj in B. now subst.
    + intros [-> [= -> ->]]. easy.
Qed.

Lemma memcmp_spec a b : memcmp a b = true <-> a = b.
Proof.
  unfold memcmp. destruct (Nat.eqb_spec (length a) (length b)) as [L|L]; simpl.
  - rewrite N.eqb_eq, memeq_loop_zero by assumption. easy.
  - split; [discriminate|]. now intros ->.
Qed.

Lemma memcmp_eqb a b : memcmp a b = bytes_eqb a b.
Proof.
  destruct (bytes_eqb a b) eqn:E.
  - apply bytes_eqb_eq in E. now apply memcmp_spec.
  - apply bytes_eqb_neq in E. destruct (memcmp a b) eqn:F; [|reflexivity].
    apply memcmp_spec in F. congruence.
Qed.

Lemma lxor_lt256 a b : (a < 256 -> b < 256 -> N.lxor a b < 256)%N.
Proof.
  intros Ha Hb.
  assert (forall x, x < 256 -> N.land x (N.ones 8) = x)%N as K.
  { intros x Hx. rewrite N.land_ones. now apply N.mod_small. }
  rewrite <- (K a Ha), <- (K b Hb).
  replace (N.lxor (N.land a (N.ones 8)) (N.land b (N.ones 8)))
    with (N.land (N.lxor a b) (N.ones 8)).
  - rewrite N.land_ones. apply N.mod_lt. easy.
  - apply N.bits_inj. intros i.
    rewrite !N.lxor_spec, !N.land_spec, N.lxor_spec.
    now destruct (N.testbit a i), (N.testbit b i), (N.testbit (N.ones 8) i).
Qed.

Lemma xor_loop_length s d : length s = length d -> length (xor_loop s d) = length d.
Proof.
  revert d; induction s as [|x s IH]; intros [|y d] L; simpl in *; auto.
Qed.

Lemma xor_loop_involutive s d :
  length s = length d -> xor_loop s (xor_loop s d) = d.
Proof.
  revert d; induction s as [|x s IH]; intros [|y d] L; try discriminate; auto.
  cbn [xor_loop]. injection L as L. rewrite IH by assumption. f_equal.
  rewrite b2n_n2b, N.mod_small.
  2:{ apply lxor_lt256; apply b2n_lt. }
  rewrite N.lxor_assoc, N.lxor_nilpotent, N.lxor_0_r. apply n2b_b2n.
Qed.

Lemma xor_loop_nth s d i x y :
  length s = length d -> nth_error s i = Some x -> nth_error d i = Some y ->
  exists z, nth_error (xor_loop s d) i = Some z /\ b2n z = N.lxor (b2n x) (b2n y).
Proof.
  revert d i; induction s as [|a s IH]; intros [|b d] i L Hs Hd; try discriminate.
  - destruct i; discriminate.
  - destruct i as [|i]; cbn [nth_error xor_loop] in *.
    + injection Hs as ->. injection Hd as ->.
      eexists; split; [reflexivity|].
      rewrite b2n_n2b, N.mod_small, N.lxor_comm; [reflexivity|].
      apply lxor_lt256; apply b2n_lt.
    + injection L as L. eauto.
Qed.
