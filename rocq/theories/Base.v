(** Common definitions: outcomes of Rust calls, bytes, slices, little-endian
    integers. *)
From Coq Require Export List Arith NArith ZArith Lia Bool.
From Coq Require Export Strings.Byte.
From Coq Require Import Strings.String.
Export ListNotations.

(** Outcome of a Rust call: normal return, [Err] of a [Result], or a panic.  No code in /repo: Rust's [Result] and panics. *)
Inductive res (E A : Type) : Type :=
| Ok (a : A)
| Err (e : E)
| Panic.
Arguments Ok {E A} _.
Arguments Err {E A} _.
Arguments Panic {E A}.

(** Rust bytes. *)
Notation byte := Byte.byte.
Definition bytes := list byte.

(** No code in /repo: a byte as a number and back. *)
Definition b2n (b : byte) : N := Byte.to_N b.
Definition n2b (n : N) : byte :=
  match Byte.of_N (n mod 256) with Some b => b | None => x00 end.

Lemma b2n_lt (b : byte) : (b2n b < 256)%N.
Proof. unfold b2n. pose proof (Byte.to_N_bounded b). lia. Qed.

Lemma n2b_b2n (b : byte) : n2b (b2n b) = b.
Proof.
  unfold n2b, b2n. pose proof (Byte.to_N_bounded b).
  rewrite N.mod_small by lia. now rewrite Byte.of_to_N.
Qed.

Lemma b2n_n2b (n : N) : b2n (n2b n) = (n mod 256)%N.
Proof.
  unfold n2b, b2n.
  destruct (Byte.of_N (n mod 256)) eqn:E.
  - now apply Byte.to_of_N.
  - apply Byte.of_N_None_iff in E.
    pose proof (N.mod_lt n 256 ltac:(lia)). lia.
Qed.

Lemma b2n_inj (a b : byte) : b2n a = b2n b -> a = b.
Proof. intros H. rewrite <- (n2b_b2n a), <- (n2b_b2n b). now rewrite H. Qed.

(** No code in /repo: equality of bytes. *)
Definition byte_eqb (a b : byte) : bool := Byte.eqb a b.
Lemma byte_eqb_eq (a b : byte) : byte_eqb a b = true <-> a = b.
Proof.
  unfold byte_eqb. split; intros H.
  - now apply Byte.byte_dec_bl.
  - now apply Byte.byte_dec_lb.
Qed.

(** No code in /repo: equality of byte strings. *)
Fixpoint bytes_eqb (a b : bytes) : bool :=
  match a, b with
  | [], [] => true
  | x :: a', y :: b' => byte_eqb x y && bytes_eqb a' b'
  | _, _ => false
  end.

Lemma bytes_eqb_eq (a b : bytes) : bytes_eqb a b = true <-> a = b.
Proof.
  revert b; induction a as [|x a IH]; intros [|y b]; simpl; try (split; easy).
  rewrite andb_true_iff, byte_eqb_eq, IH. split.
  - now intros [-> ->].
  - intros [= -> ->]. easy.
Qed.

Lemma bytes_eqb_refl (a : bytes) : bytes_eqb a a = true.
Proof. now apply bytes_eqb_eq. Qed.

Lemma bytes_eqb_neq (a b : bytes) : bytes_eqb a b = false <-> a <> b.
Proof.
  rewrite <- bytes_eqb_eq. destruct (bytes_eqb a b); split; congruence.
Qed.

(** No code in /repo: equality of byte strings. *)
Definition bytes_dec (a b : bytes) : {a = b} + {a <> b} :=
  list_eq_dec Byte.byte_eq_dec a b.

(** [zeros n] is the Rust value [[0u8; n]]. *)
Definition zeros (n : nat) : bytes := repeat x00 n.

Lemma zeros_length n : List.length (zeros n) = n.
Proof. apply repeat_length. Qed.

(** [slice off len l] is the Rust slice [l[off..off+len]] when in bounds.  No code in /repo: Rust. *)
Definition slice (off len : nat) (l : bytes) : bytes := firstn len (skipn off l).

Lemma slice_length off len l :
  off + len <= List.length l -> List.length (slice off len l) = len.
Proof. intros H. unfold slice. rewrite firstn_length, skipn_length. lia. Qed.

(** Little-endian integers.  No code in /repo: Rust's [from_le_bytes] and [to_le_bytes]. *)
Fixpoint le_dec (l : bytes) : N :=
  match l with
  | [] => 0
  | b :: l' => b2n b + 256 * le_dec l'
  end.

(** No code in /repo: Rust's [to_le_bytes]. *)
Fixpoint le_enc (len : nat) (n : N) : bytes :=
  match len with
  | O => []
  | S k => n2b n :: le_enc k (n / 256)
  end.

(** No code in /repo: used in proofs. *)
Definition pow256 (n : nat) : N := (256 ^ N.of_nat n)%N.

Lemma pow256_S n : pow256 (S n) = (256 * pow256 n)%N.
Proof.
  unfold pow256. rewrite Nat2N.inj_succ, N.pow_succ_r'. reflexivity.
Qed.

Lemma pow256_pos n : (0 < pow256 n)%N.
Proof.
  induction n as [|n IH].
  - reflexivity.
  - rewrite pow256_S. lia.
Qed.

Lemma le_dec_bound l : (le_dec l < pow256 (List.length l))%N.
Proof.
  induction l as [|b l IH].
  - reflexivity.
  - cbn [le_dec List.length]. rewrite pow256_S. pose proof (b2n_lt b). lia.
Qed.

Lemma le_enc_length len n : List.length (le_enc len n) = len.
Proof.
  revert n; induction len as [|k IH]; intros n; simpl; [reflexivity|].
  now rewrite IH.
Qed.

Lemma le_dec_enc len n : le_dec (le_enc len n) = (n mod pow256 len)%N.
Proof.
  revert n; induction len as [|k IH]; intros n.
  - change (pow256 0) with 1%N. now rewrite N.mod_1_r.
  - cbn [le_enc le_dec]. rewrite IH, b2n_n2b, pow256_S.
    pose proof (pow256_pos k).
    rewrite N.mod_mul_r by lia. reflexivity.
Qed.

Lemma le_enc_dec l : le_enc (List.length l) (le_dec l) = l.
Proof.
  induction l as [|b l IH]; [reflexivity|].
  cbn [List.length le_dec le_enc]. pose proof (b2n_lt b).
  replace ((b2n b + 256 * le_dec l) / 256)%N with (le_dec l).
  - rewrite IH. f_equal. unfold n2b.
    replace ((b2n b + 256 * le_dec l) mod 256)%N with (b2n b).
    + fold (n2b (b2n b)). unfold b2n. now rewrite Byte.of_to_N.
    + rewrite (N.mul_comm 256), N.mod_add by lia. now rewrite N.mod_small.
  - rewrite (N.mul_comm 256), N.div_add by lia.
    rewrite N.div_small by assumption. lia.
Qed.

Lemma le_dec_inj a b :
  List.length a = List.length b -> le_dec a = le_dec b -> a = b.
Proof.
  intros L H. rewrite <- (le_enc_dec a), <- (le_enc_dec b). now rewrite L, H.
Qed.

(** Big-endian encoding ([to_be_bytes]).  No code in /repo: Rust. *)
Definition be_enc (len : nat) (n : N) : bytes := rev (le_enc len n).
(** No code in /repo: Rust's [from_be_bytes]. *)
Definition be_dec (l : bytes) : N := le_dec (rev l).

Lemma be_enc_length len n : List.length (be_enc len n) = len.
Proof. unfold be_enc. now rewrite rev_length, le_enc_length. Qed.

Lemma be_dec_enc len n : be_dec (be_enc len n) = (n mod pow256 len)%N.
Proof. unfold be_dec, be_enc. now rewrite rev_involutive, le_dec_enc. Qed.

(** ASCII strings as bytes.  No code in /repo: Rust's byte string literals. *)
Definition str (s : string) : bytes := list_byte_of_string s.

(** Replace one element of a list (no effect out of bounds; the callers check
    bounds and panic themselves).  No code in /repo: Rust's [IndexMut]. *)
Fixpoint upd {A} (n : nat) (x : A) (l : list A) : list A :=
  match l, n with
  | [], _ => []
  | _ :: l', O => x :: l'
  | y :: l', S n' => y :: upd n' x l'
  end.

Lemma upd_length {A} n (x : A) l : List.length (upd n x l) = List.length l.
Proof. revert n; induction l; intros [|n]; simpl; auto. Qed.

Lemma nth_error_upd_eq {A} n (x : A) l :
  n < List.length l -> nth_error (upd n x l) n = Some x.
Proof.
  revert n; induction l; intros [|n]; simpl; intros; try lia; auto.
  apply IHl. lia.
Qed.

Lemma nth_error_upd_neq {A} n m (x : A) l :
  n <> m -> nth_error (upd n x l) m = nth_error l m.
Proof.
  revert n m; induction l; intros [|n] [|m]; simpl; intros; auto; try lia.
Qed.

Lemma nth_error_upd {A} n m (x : A) l :
  nth_error (upd n x l) m =
  if Nat.eqb n m then
    match nth_error l m with Some _ => Some x | None => None end
  else nth_error l m.
Proof.
  destruct (Nat.eqb_spec n m) as [->|E].
  - destruct (nth_error l m) eqn:F.
    + apply nth_error_upd_eq. apply nth_error_Some. congruence.
    + apply nth_error_None. rewrite upd_length. now apply nth_error_None.
  - now apply nth_error_upd_neq.
Qed.

Lemma upd_upd {A} n (x y : A) l : upd n x (upd n y l) = upd n x l.
Proof. revert n; induction l; intros [|n]; simpl; auto. now rewrite IHl. Qed.

Lemma upd_same {A} n (x : A) l : nth_error l n = Some x -> upd n x l = l.
Proof.
  revert n; induction l; intros [|n]; simpl; intros H; try congruence.
  f_equal. now apply IHl.
Qed.
