(** Properties of key files: C68. *)
From Coq Require Import Strings.String.
From Verif Require Import Base Lpe Files.
Local Close Scope string_scope.
Local Open Scope list_scope.

(** * Specification *)

(** The binary digits of a number, the most significant first, [k] of them *)
Fixpoint bits (k : nat) (n : N) : list bool := match k with O => [] | S k => N.testbit n (N.of_nat k) :: bits k n end.
(** The alphabet, RFC 4648, table 1 *)
Definition alphabet : bytes :=
  list_byte_of_string "ABCDEFGHIJKLMNOPQRSTUVWXYZabcdefghijklmnopqrstuvwxyz0123456789+/"%string.
Definition equals_sign : byte := x3d.
(** RFC 4648, section 4: the digits of the data, in groups of six, each written as a letter; zero digits fill the last group and
    equals signs the last four letters *)
Definition is_base64 (t d : bytes) : Prop :=
  exists groups fill pad,
    t = map (fun v => nth (N.to_nat v) alphabet x00) groups ++ repeat equals_sign pad /\
    Forall (fun v => v < 64)%N groups /\
    flat_map (bits 6) groups = flat_map (fun b => bits 8 (b2n b)) d ++ repeat false fill /\
    (fill < 6 /\ pad < 4 /\ Nat.modulo (length t) 4 = 0)%nat.
(** Nobody but the owner can read, write or execute *)
Definition private (mode : N) : Prop := forall i, (i < 6)%N -> N.testbit mode i = false.
(** Anybody can read *)
Definition readable_by_all (mode : N) : Prop := N.testbit mode 2 = true.

(** * Base64 *)

Lemma bits_length k n : length (bits k n) = k.
Proof. induction k; cbn [bits length]; congruence. Qed.

Lemma bits_split i j n : bits (i + j) n = bits i (n / 2 ^ N.of_nat j) ++ bits j (n mod 2 ^ N.of_nat j).
Proof.
  assert (A : forall i, bits (i + j) n = bits i (n / 2 ^ N.of_nat j) ++ bits j n).
  { clear i. induction i as [|i IH]; [reflexivity|]. cbn [Nat.add bits List.app].
    rewrite IH, <- N.shiftr_div_pow2, N.shiftr_spec'. do 2 f_equal. lia. }
  rewrite A. f_equal. assert (B : forall k, (k <= j)%nat -> bits k n = bits k (n mod 2 ^ N.of_nat j)).
  { clear. induction k as [|k IH]; intros K; [reflexivity|]. cbn [bits]. rewrite IH by lia. f_equal.
    rewrite N.mod_pow2_bits_low by lia. reflexivity. }
  apply B. lia.
Qed.

Lemma b64_char_alphabet v : (v < 64)%N -> b64_char v = nth (N.to_nat v) alphabet x00.
Proof.
  intros L. assert (A : forallb (fun i => byte_eqb (b64_char (N.of_nat i)) (nth i alphabet x00)) (seq 0 64) = true) by reflexivity.
  rewrite forallb_forall in A. specialize (A (N.to_nat v)). rewrite N2Nat.id in A. apply byte_eqb_eq, A.
  apply in_seq. lia.
Qed.

Lemma b64_val_char v : (v < 64)%N -> b64_val (b64_char v) = Some v.
Proof.
  intros L.
  assert (A : forallb (fun i => match b64_val (b64_char (N.of_nat i)) with Some w => N.eqb w (N.of_nat i) | None => false end) (seq 0 64) = true)
    by reflexivity.
  rewrite forallb_forall in A. specialize (A (N.to_nat v)). rewrite N2Nat.id in A.
  destruct (b64_val (b64_char v)) as [w|]; [|discriminate A; apply in_seq; lia].
  f_equal. apply N.eqb_eq, A. apply in_seq. lia.
Qed.
Lemma b64_char_not_pad v : (v < 64)%N -> byte_eqb (b64_char v) x3d = false.
Proof.
  intros L. assert (A : forallb (fun i => negb (byte_eqb (b64_char (N.of_nat i)) x3d)) (seq 0 64) = true) by reflexivity.
  rewrite forallb_forall in A. specialize (A (N.to_nat v)). rewrite N2Nat.id in A.
  destruct (byte_eqb (b64_char v) x3d); [|reflexivity]. discriminate A. apply in_seq. lia.
Qed.

Definition g1 (a : N) := (a / 4)%N.
Definition g2 (a b : N) := ((a mod 4) * 16 + b / 16)%N.
Definition g3 (b c : N) := ((b mod 16) * 4 + c / 64)%N.
Definition g4 (c : N) := (c mod 64)%N.
Lemma g_lt a b c : (a < 256 -> b < 256 -> c < 256 -> g1 a < 64 /\ g2 a b < 64 /\ g3 b c < 64 /\ g4 c < 64)%N.
Proof.
  unfold g1, g2, g3, g4. intros A B C.
  pose proof (N.mod_lt a 4 ltac:(discriminate)). pose proof (N.mod_lt b 16 ltac:(discriminate)).
  pose proof (N.div_lt_upper_bound a 4 64 ltac:(discriminate) ltac:(lia)).
  pose proof (N.div_lt_upper_bound b 16 16 ltac:(discriminate) ltac:(lia)).
  pose proof (N.div_lt_upper_bound c 64 4 ltac:(discriminate) ltac:(lia)).
  pose proof (N.mod_lt c 64 ltac:(discriminate)). lia.
Qed.
Lemma div_mod_join x y k : (y < k -> (x * k + y) / k = x /\ (x * k + y) mod k = y)%N.
Proof.
  intros L. assert (k <> 0)%N by lia. split.
  - rewrite N.div_add_l, N.div_small by assumption. lia.
  - rewrite N.add_comm, N.mod_add, N.mod_small by assumption. reflexivity.
Qed.
Lemma small_div y k n : (0 < k)%N -> (y < k * n)%N -> (y / k < n)%N.
Proof. intros K L. apply N.div_lt_upper_bound; lia. Qed.

Lemma g_data a b c : (a < 256 -> b < 256 -> c < 256 -> b64_data4 (g1 a) (g2 a b) (g3 b c) (g4 c) = (a, b, c))%N.
Proof.
  intros A B C. unfold b64_data4, g1, g2, g3, g4.
  pose proof (small_div b 16 16 ltac:(lia) ltac:(lia)) as B1. pose proof (small_div c 64 4 ltac:(lia) ltac:(lia)) as C1.
  destruct (div_mod_join (a mod 4) (b / 16) 16 B1) as [-> ->].
  destruct (div_mod_join (b mod 16) (c / 64) 4 C1) as [-> ->].
  rewrite (N.mul_comm (a / 4)), <- (N.div_mod a 4), (N.mul_comm (b / 16)), <- (N.div_mod b 16), (N.mul_comm (c / 64)), <- (N.div_mod c 64) by discriminate.
  reflexivity.
Qed.

Lemma bits_shift i j x y : (y < 2 ^ N.of_nat j)%N -> bits (i + j) (x * 2 ^ N.of_nat j + y) = bits i x ++ bits j y.
Proof. intros L. rewrite bits_split. destruct (div_mod_join x y _ L) as [-> ->]. reflexivity. Qed.

Lemma g_bits a b c : (a < 256 -> b < 256 -> c < 256 ->
  bits 6 (g1 a) ++ bits 6 (g2 a b) ++ bits 6 (g3 b c) ++ bits 6 (g4 c) = bits 8 a ++ bits 8 b ++ bits 8 c)%N.
Proof.
  intros A B C. unfold g1, g2, g3, g4.
  pose proof (small_div b 16 16 ltac:(lia) ltac:(lia)) as B1. pose proof (small_div c 64 4 ltac:(lia) ltac:(lia)) as C1.
  change (bits 8 a) with (bits (6 + 2) a). change (bits 8 b) with (bits (4 + 4) b). change (bits 8 c) with (bits (2 + 6) c).
  rewrite (bits_split 6 2 a), (bits_split 4 4 b), (bits_split 2 6 c).
  change (2 ^ N.of_nat 2)%N with 4%N. change (2 ^ N.of_nat 4)%N with 16%N. change (2 ^ N.of_nat 6)%N with 64%N.
  pose proof (bits_shift 2 4 (a mod 4) (b / 16)) as X. change (2 ^ N.of_nat 4)%N with 16%N in X.
  pose proof (bits_shift 4 2 (b mod 16) (c / 64)) as Y. change (2 ^ N.of_nat 2)%N with 4%N in Y.
  change (bits 6 (a mod 4 * 16 + b / 16)) with (bits (2 + 4) (a mod 4 * 16 + b / 16)). rewrite X by assumption.
  change (bits 6 (b mod 16 * 4 + c / 64)) with (bits (4 + 2) (b mod 16 * 4 + c / 64)). rewrite Y by assumption.
  rewrite <- !app_assoc. reflexivity.
Qed.

(** Induction three bytes at a time *)
Lemma three_ind (P : bytes -> Prop) : P [] -> (forall a, P [a]) -> (forall a b, P [a; b]) ->
  (forall a b c d, P d -> P (a :: b :: c :: d)) -> forall d, P d.
Proof.
  intros P0 P1 P2 P3 d. assert (H : P d /\ (forall a, P (a :: d)) /\ (forall a b, P (a :: b :: d))); [|tauto].
  induction d as [|x d (I & J & K)]; [auto|]. auto.
Qed.

Lemma b64_text_cons a b c d : b64_text (a :: b :: c :: d) =
  map b64_char [g1 (b2n a); g2 (b2n a) (b2n b); g3 (b2n b) (b2n c); g4 (b2n c)] ++ b64_text d.
Proof. reflexivity. Qed.
Lemma b64_text_2 a b : b64_text [a; b] = map b64_char [g1 (b2n a); g2 (b2n a) (b2n b); g3 (b2n b) 0] ++ [x3d].
Proof. reflexivity. Qed.
Lemma b64_text_1 a : b64_text [a] = map b64_char [g1 (b2n a); g2 (b2n a) 0] ++ [x3d; x3d].
Proof. reflexivity. Qed.

Lemma b64_data_cons a b c d t : (a < 64)%N -> (b < 64)%N -> (c < 64)%N -> (d < 64)%N ->
  b64_data (b64_char a :: b64_char b :: b64_char c :: b64_char d :: t) =
  match b64_data t with Some r => let '(x, y, z) := b64_data4 a b c d in Some (n2b x :: n2b y :: n2b z :: r) | None => None end.
Proof.
  intros A B C D. cbn [b64_data]. rewrite !b64_val_char by assumption. rewrite b64_char_not_pad by assumption.
  destruct (b64_data t); reflexivity.
Qed.
Lemma b64_data_2 a b c : (a < 64)%N -> (b < 64)%N -> (c < 64)%N ->
  b64_data [b64_char a; b64_char b; b64_char c; x3d] =
  if N.eqb (c mod 4) 0 then let '(x, y, _) := b64_data4 a b c 0 in Some [n2b x; n2b y] else None.
Proof.
  intros A B C. cbn [b64_data]. rewrite !b64_val_char, b64_char_not_pad by assumption. reflexivity.
Qed.
Lemma b64_data_1 a b : (a < 64)%N -> (b < 64)%N ->
  b64_data [b64_char a; b64_char b; x3d; x3d] =
  if N.eqb (b mod 16) 0 then let '(x, _, _) := b64_data4 a b 0 0 in Some [n2b x] else None.
Proof. intros A B. cbn [b64_data]. rewrite !b64_val_char by assumption. reflexivity. Qed.

Lemma b64_data_text d : b64_data (b64_text d) = Some d.
Proof.
  induction d as [|a|a b|a b c d IH] using three_ind; [reflexivity| | |].
  - rewrite b64_text_1. pose proof (b2n_lt a).
    destruct (g_lt (b2n a) 0 0) as (A & B & C & _); [assumption|lia..|].
    pose proof (g_data (b2n a) 0 0 ltac:(assumption) ltac:(lia) ltac:(lia)) as D.
    cbn [map List.app]. rewrite b64_data_1 by assumption.
    assert (E : (g2 (b2n a) 0 mod 16 = 0)%N) by (apply (div_mod_join (b2n a mod 4) 0 16); lia).
    rewrite E. cbn [N.eqb]. change (g3 0 0) with 0%N in D. change (g4 0) with 0%N in D. rewrite D. now rewrite n2b_b2n.
  - rewrite b64_text_2. pose proof (b2n_lt a). pose proof (b2n_lt b).
    destruct (g_lt (b2n a) (b2n b) 0) as (A & B & C & _); [assumption..|lia|].
    pose proof (g_data (b2n a) (b2n b) 0 ltac:(assumption) ltac:(assumption) ltac:(lia)) as D.
    cbn [map List.app]. rewrite b64_data_2 by assumption.
    assert (E : (g3 (b2n b) 0 mod 4 = 0)%N) by (apply (div_mod_join (b2n b mod 16) 0 4); lia).
    rewrite E. cbn [N.eqb]. change (g4 0) with 0%N in D. rewrite D. now rewrite !n2b_b2n.
  - rewrite b64_text_cons. pose proof (b2n_lt a). pose proof (b2n_lt b). pose proof (b2n_lt c).
    destruct (g_lt (b2n a) (b2n b) (b2n c)) as (A & B & C & D); [assumption..|].
    cbn [map List.app]. rewrite b64_data_cons, IH, g_data by assumption. now rewrite !n2b_b2n.
Qed.

Definition all_bytes : bytes := map (fun i => n2b (N.of_nat i)) (seq 0 256).
Lemma all_bytes_in b : In b all_bytes.
Proof.
  unfold all_bytes. rewrite <- (n2b_b2n b). apply in_map_iff. exists (N.to_nat (b2n b)). rewrite N2Nat.id.
  split; [reflexivity|]. apply in_seq. pose proof (b2n_lt b). lia.
Qed.
Lemma b64_char_val c v : b64_val c = Some v -> (v < 64)%N /\ c = b64_char v.
Proof.
  intros H. assert (A : forallb (fun c => match b64_val c with Some v => N.ltb v 64 && byte_eqb c (b64_char v) | None => true end) all_bytes = true)
    by reflexivity.
  rewrite forallb_forall in A. specialize (A c (all_bytes_in c)). rewrite H in A. apply andb_true_iff in A as [A B].
  apply N.ltb_lt in A. apply byte_eqb_eq in B. auto.
Qed.
Lemma data_g a b c d x y z : (a < 64 -> b < 64 -> c < 64 -> d < 64 -> b64_data4 a b c d = (x, y, z) ->
  (x < 256 /\ y < 256 /\ z < 256) /\ g1 x = a /\ g2 x y = b /\ g3 y z = c /\ g4 z = d)%N.
Proof.
  intros A B C D H. unfold b64_data4 in H.
  assert (Hx : (a * 4 + b / 16)%N = x) by congruence. assert (Hy : ((b mod 16) * 16 + c / 4)%N = y) by congruence.
  assert (Hz : ((c mod 4) * 64 + d)%N = z) by congruence. clear H. subst x y z. unfold g1, g2, g3, g4.
  pose proof (small_div b 16 4 ltac:(lia) ltac:(lia)) as B1. pose proof (small_div c 4 16 ltac:(lia) ltac:(lia)) as C1.
  pose proof (N.mod_lt b 16 ltac:(discriminate)). pose proof (N.mod_lt c 4 ltac:(discriminate)).
  destruct (div_mod_join a (b / 16) 4 B1) as [-> ->]. destruct (div_mod_join (b mod 16) (c / 4) 16 C1) as [-> ->].
  destruct (div_mod_join (c mod 4) d 64 D) as [-> ->].
  rewrite (N.mul_comm (b / 16)), <- (N.div_mod b 16), (N.mul_comm (c / 4)), <- (N.div_mod c 4) by discriminate.
  lia.
Qed.
Lemma four_ind (P : bytes -> Prop) : (forall t, (length t < 4)%nat -> P t) -> (forall a b c d t, P t -> P (a :: b :: c :: d :: t)) -> forall t, P t.
Proof.
  intros S0 S1. assert (H : forall n t, (length t <= n)%nat -> P t); [|intros t; apply (H (length t)); lia].
  induction n as [|n IH]; intros t L; [apply S0; lia|].
  destruct t as [|a [|b [|c [|d t]]]]; try (apply S0; cbn [length]; lia). apply S1, IH. cbn [length] in L. lia.
Qed.

(** The only text that stands for some data is the text of that data *)
Lemma b64_text_data t : forall d, b64_data t = Some d -> t = b64_text d.
Proof.
  induction t as [t Sh|a b c e t IH] using four_ind; intros d H.
  - destruct t as [|? [|? [|? [|? ?]]]]; try discriminate H; [|cbn [length] in Sh; lia].
    assert (d = []) by (cbn in H; congruence). subst. reflexivity.
  - cbn [b64_data] in H. destruct (b64_val a) as [va|] eqn:Ea; [|discriminate]. destruct (b64_val b) as [vb|] eqn:Eb; [|discriminate].
    apply b64_char_val in Ea as [La ->]. apply b64_char_val in Eb as [Lb ->].
    destruct (byte_eqb e x3d) eqn:Ee.
    + apply byte_eqb_eq in Ee as ->. destruct t; [|discriminate]. destruct (byte_eqb c x3d) eqn:Ec.
      * apply byte_eqb_eq in Ec as ->. destruct (N.eqb_spec (vb mod 16) 0) as [M|]; [|discriminate].
        destruct (b64_data4 va vb 0 0) as [[x y] z] eqn:G. destruct (data_g _ _ 0 0 _ _ _ La Lb eq_refl eq_refl G) as ((Hx & Hy & Hz) & G1 & G2 & G3 & G4).
        assert (d = [n2b x]) by congruence. subst d. rewrite b64_text_1, b2n_n2b, N.mod_small by assumption.
        assert (y = 0%N). { unfold b64_data4 in G. assert (y = ((vb mod 16) * 16 + 0 / 4)%N) by congruence. rewrite M in *. subst. reflexivity. }
        subst y. rewrite G1, G2. reflexivity.
      * destruct (b64_val c) as [vc|] eqn:Ev; [|discriminate]. apply b64_char_val in Ev as [Lc ->].
        destruct (N.eqb_spec (vc mod 4) 0) as [M|]; [|discriminate].
        destruct (b64_data4 va vb vc 0) as [[x y] z] eqn:G. destruct (data_g _ _ _ 0 _ _ _ La Lb Lc eq_refl G) as ((Hx & Hy & Hz) & G1 & G2 & G3 & G4).
        assert (d = [n2b x; n2b y]) by congruence. subst d. rewrite b64_text_2, !b2n_n2b, !N.mod_small by assumption.
        assert (z = 0%N). { unfold b64_data4 in G. assert (z = ((vc mod 4) * 64 + 0)%N) by congruence. rewrite M in *. subst. reflexivity. }
        subst z. rewrite G1, G2, G3. reflexivity.
    + destruct (b64_val c) as [vc|] eqn:Ev; [|discriminate]. destruct (b64_val e) as [ve|] eqn:Ew; [|discriminate].
      destruct (b64_data t) as [r|]; [|discriminate]. apply b64_char_val in Ev as [Lc ->]. apply b64_char_val in Ew as [Le ->].
      destruct (b64_data4 va vb vc ve) as [[x y] z] eqn:G. destruct (data_g _ _ _ _ _ _ _ La Lb Lc Le G) as ((Hx & Hy & Hz) & G1 & G2 & G3 & G4).
      assert (d = n2b x :: n2b y :: n2b z :: r) by congruence. subst d.
      rewrite b64_text_cons, !b2n_n2b, !N.mod_small, G1, G2, G3, G4 by assumption. cbn [map List.app]. rewrite <- (IH r eq_refl). reflexivity.
Qed.

Lemma map_chars l : Forall (fun v => v < 64)%N l -> map b64_char l = map (fun v => nth (N.to_nat v) alphabet x00) l.
Proof. induction 1; [reflexivity|]. cbn [map]. rewrite b64_char_alphabet by assumption. congruence. Qed.

(** C68: what is stored as Base64 is Base64 *)
Theorem C68_text_is_base64 : forall d, is_base64 (b64_text d) d.
Proof.
  intros d. induction d as [|a|a b|a b c d IH] using three_ind.
  - exists [], 0, 0. repeat split; auto; lia.
  - pose proof (b2n_lt a). destruct (g_lt (b2n a) 0 0) as (A & B & _); [assumption|lia..|].
    pose proof (g_bits (b2n a) 0 0 ltac:(assumption) ltac:(lia) ltac:(lia)) as G.
    assert (F : Forall (fun v => v < 64)%N [g1 (b2n a); g2 (b2n a) 0]) by auto.
    exists [g1 (b2n a); g2 (b2n a) 0], 4, 2. rewrite b64_text_1, (map_chars _ F).
    repeat split; auto; try lia. cbn [flat_map List.app]. rewrite !app_nil_r.
    apply (f_equal (firstn 12)) in G. rewrite app_assoc, firstn_app in G.
    rewrite firstn_all2 in G by (rewrite app_length, !bits_length; lia).
    rewrite app_length, !bits_length in G. change (firstn (12 - (6 + 6)) _) with (@nil bool) in G at 1. rewrite app_nil_r in G.
    rewrite G. rewrite firstn_app, bits_length, firstn_all2 by (rewrite bits_length; lia). reflexivity.
  - pose proof (b2n_lt a). pose proof (b2n_lt b). destruct (g_lt (b2n a) (b2n b) 0) as (A & B & C & _); [assumption..|lia|].
    pose proof (g_bits (b2n a) (b2n b) 0 ltac:(assumption) ltac:(assumption) ltac:(lia)) as G.
    assert (F : Forall (fun v => v < 64)%N [g1 (b2n a); g2 (b2n a) (b2n b); g3 (b2n b) 0]) by auto.
    exists [g1 (b2n a); g2 (b2n a) (b2n b); g3 (b2n b) 0], 2, 1. rewrite b64_text_2, (map_chars _ F).
    repeat split; auto; try lia. cbn [flat_map]. rewrite !app_nil_r.
    apply (f_equal (firstn 18)) in G. rewrite !app_assoc, firstn_app in G.
    rewrite firstn_all2 in G by (rewrite !app_length, !bits_length; lia).
    rewrite !app_length, !bits_length in G. change (firstn (18 - (6 + 6 + 6)) _) with (@nil bool) in G at 1. rewrite app_nil_r in G.
    rewrite !app_assoc, G. rewrite firstn_app, app_length, !bits_length, firstn_all2 by (rewrite app_length, !bits_length; lia). reflexivity.
  - destruct IH as (gs & fill & pad & T & F & B & L1 & L2 & L3).
    pose proof (b2n_lt a). pose proof (b2n_lt b). pose proof (b2n_lt c).
    destruct (g_lt (b2n a) (b2n b) (b2n c)) as (A1 & A2 & A3 & A4); [assumption..|].
    pose proof (g_bits (b2n a) (b2n b) (b2n c) ltac:(assumption) ltac:(assumption) ltac:(assumption)) as G.
    assert (F' : Forall (fun v => v < 64)%N [g1 (b2n a); g2 (b2n a) (b2n b); g3 (b2n b) (b2n c); g4 (b2n c)]) by auto.
    exists ([g1 (b2n a); g2 (b2n a) (b2n b); g3 (b2n b) (b2n c); g4 (b2n c)] ++ gs), fill, pad.
    rewrite b64_text_cons, (map_chars _ F'). repeat split; auto.
    + rewrite map_app, T, <- app_assoc. reflexivity.
    + apply Forall_app. auto.
    + rewrite flat_map_app, B. cbn [flat_map]. rewrite !app_nil_r, G, <- !app_assoc. reflexivity.
    + rewrite app_length, map_length. cbn [length]. change (4 + length (b64_text d)) with (1 * 4 + length (b64_text d)).
      rewrite Nat.add_comm, Nat.mod_add by lia. exact L3.
Qed.
Print Assumptions C68_text_is_base64.

Lemma b64_text_length d : length (b64_text d) = 4 * ((length d + 2) / 3).
Proof.
  induction d as [|a|a b|a b c d IH] using three_ind; try reflexivity.
  rewrite b64_text_cons, app_length, IH, map_length. cbn [length].
  replace (S (S (S (length d))) + 2) with (1 * 3 + (length d + 2)) by lia. rewrite Nat.div_add_l by lia. lia.
Qed.
Lemma b64_text_nil d : b64_text d = [] -> d = [].
Proof.
  intros H. apply (f_equal (@length _)) in H. rewrite b64_text_length in H. cbn [length] in H.
  destruct d as [|x d]; [reflexivity|]. cbn [length] in H. assert ((S (length d) + 2) / 3 = 0) by lia.
  apply Nat.div_small_iff in H0; lia.
Qed.

Lemma b64_decode_text junk d out : d <> [] ->
  b64_decode junk (b64_text d) out = if Nat.leb (length d) (length out) then Some (d ++ skipn (length d) out) else None.
Proof.
  intros D. unfold b64_decode. rewrite b64_data_text. destruct (b64_text d) eqn:E; [|reflexivity].
  apply b64_text_nil in E. contradiction.
Qed.

(** * Writing *)

Lemma fset_same f p n : fset f p n p = Some n.
Proof. unfold fset. now rewrite String.eqb_refl. Qed.
Lemma fset_other f p n q : q <> p -> fset f p n q = f q.
Proof. unfold fset. intros N. now apply String.eqb_neq in N as ->. Qed.

(** Writing to a path changes no other path *)
Lemma write_other umask mode w p d f q : q <> p -> fst (write_file umask mode w p d f) q = f q.
Proof.
  intros N. unfold write_file. destruct w; [reflexivity| |]; destruct (f p) as [[]|] eqn:E; cbn [fst];
    rewrite ?fset_other by assumption; reflexivity.
Qed.
Lemma write_ok umask mode w p d f : snd (write_file umask mode w p d f) = true ->
  w = WAll /\ match f p with
    | None => write_file umask mode w p d f = (fset f p (NFile (N.ldiff mode umask) d), true)
    | Some (NFile m _) => write_file umask mode w p d f = (fset f p (NFile m d), true)
    | Some (NDir _) => False
    | Some (NOther _) => write_file umask mode w p d f = (f, true)
    end.
Proof. unfold write_file. destruct w; try discriminate; destruct (f p) as [[]|] eqn:E; cbn [snd]; intros X; try discriminate X; auto. Qed.

Lemma private_secret umask : private (N.ldiff M_SECRET umask).
Proof.
  intros i L. rewrite N.ldiff_spec. assert (A : N.testbit M_SECRET i = false); [|now rewrite A].
  assert (C : (i = 0 \/ i = 1 \/ i = 2 \/ i = 3 \/ i = 4 \/ i = 5)%N) by lia.
  destruct C as [->|[->|[->|[->|[->| ->]]]]]; reflexivity.
Qed.

(** * Theorems *)

(** C68: a key that was stored is loaded again unchanged *)
Theorem C68_roundtrip : forall umask w p d f,
  is_file f p = true \/ f p = None ->
  snd (store_secret umask w p d f) = true -> load (N.of_nat (length d)) p (fst (store_secret umask w p d f)) = Some d.
Proof.
  intros umask w p d f K St. unfold store_secret in *. destruct (write_ok _ _ _ _ _ _ St) as [-> H].
  unfold is_file in K. destruct (f p) as [[m c|m|m]|]; try (destruct K; discriminate).
  all: rewrite H; unfold load, contents; cbn [fst]; rewrite fset_same, N.eqb_refl; reflexivity.
Qed.
Print Assumptions C68_roundtrip.

Theorem C68_roundtrip_public : forall umask w p d f,
  is_file f p = true \/ f p = None ->
  snd (store_public umask w p d f) = true -> load (N.of_nat (length d)) p (fst (store_public umask w p d f)) = Some d.
Proof.
  intros umask w p d f K St. unfold store_public in *. destruct (write_ok _ _ _ _ _ _ St) as [-> H].
  unfold is_file in K. destruct (f p) as [[m c|m|m]|]; try (destruct K; discriminate).
  all: rewrite H; unfold load, contents; cbn [fst]; rewrite fset_same, N.eqb_refl; reflexivity.
Qed.
Print Assumptions C68_roundtrip_public.

(** C68: exactly the files with as many bytes as the key are loaded, and the key is what they contain *)
Theorem C68_exact : forall n p f d,
  load n p f = Some d <-> (exists m, f p = Some (NFile m d)) /\ N.of_nat (length d) = n.
Proof.
  intros n p f d. unfold load, contents. destruct (f p) as [[m c|m|m]|].
  2-4: split; [discriminate|intros [[? X] _]; discriminate X].
  destruct (N.eqb_spec (N.of_nat (length c)) n) as [E|E].
  - split; [intros X; assert (c = d) by congruence; subst; eauto|intros [[? X] _]; congruence].
  - split; [discriminate|intros [[? X] L]; congruence].
Qed.
Print Assumptions C68_exact.

(** C68: the same for keys stored as Base64, whatever the buffer held before *)
Theorem C68_b64_roundtrip : forall junk mode umask size w p d f out,
  is_file f p = true \/ f p = None -> d <> [] -> length out = length d ->
  snd (store_b64 mode umask size w p d f) = true ->
  load_b64 junk size out p (fst (store_b64 mode umask size w p d f)) = Some d.
Proof.
  intros junk mode umask size w p d f out K D L St. unfold store_b64, b64_encode in *.
  destruct (Nat.leb_spec (length (b64_text d)) size) as [Sz|Sz]; [|discriminate St].
  assert (C : contents (fst (write_file umask mode w p (b64_text d) f)) p = Some (b64_text d)).
  { destruct (write_ok _ _ _ _ _ _ St) as [-> H]. unfold is_file in K. destruct (f p) as [[m c|m|m]|]; try (destruct K; discriminate).
    all: rewrite H; unfold contents; cbn [fst]; rewrite fset_same; reflexivity. }
  unfold load_b64. rewrite C, (proj2 (Nat.leb_le _ _) Sz). unfold b64_decode. rewrite b64_data_text, L, Nat.leb_refl.
  rewrite skipn_all2 by lia. rewrite app_nil_r. destruct (b64_text d) eqn:E; [|reflexivity].
  apply b64_text_nil in E. contradiction.
Qed.
Print Assumptions C68_b64_roundtrip.

(** C68: the buffers of [size] bytes that are used are large enough for the keys stored with them: for every [n], 5/3 of [n] *)
Theorem C68_b64_fits : forall d, (12 <= length d)%nat -> b64_encode (length d * 5 / 3) d = Some (b64_text d).
Proof.
  intros d L. unfold b64_encode. rewrite b64_text_length. rewrite (proj2 (Nat.leb_le _ _)); [reflexivity|].
  apply Nat.div_le_lower_bound; [lia|]. pose proof (Nat.mul_div_le (length d + 2) 3 ltac:(lia)). lia.
Qed.
Print Assumptions C68_b64_fits.

(** C68: a Base64 file is loaded if the data it stands for fit, and then the key begins with them *)
Theorem C68_b64_loaded_partial : forall junk size out p f d,
  d <> [] -> contents f p = Some (b64_text d) ->
  forall k, load_b64 junk size out p f = Some k <->
    (length (b64_text d) <= size /\ length d <= length out)%nat /\ k = d ++ skipn (length d) out.
Proof.
  intros junk size out p f d D C k. unfold load_b64. rewrite C.
  destruct (Nat.leb_spec (length (b64_text d)) size) as [L|L]; [|split; [discriminate|lia]].
  rewrite b64_decode_text by assumption. destruct (Nat.leb_spec (length d) (length out)) as [M|M]; [|split; [discriminate|lia]].
  split; [intros X; split; [auto|congruence]|intros [_ ->]; reflexivity].
Qed.
Print Assumptions C68_b64_loaded_partial.

(** C68: a Base64 text stands for one value, and a value has one text *)
Theorem C68_b64_one_text : forall t d, b64_data t = Some d <-> t = b64_text d.
Proof. intros t d. split; [apply b64_text_data|intros ->; apply b64_data_text]. Qed.
Print Assumptions C68_b64_one_text.

(** C68 fails: a file that is too short for a key is accepted, and the rest of the key is whatever the buffer held, which is
    random for a secret: two loads of one file give different keys *)
Theorem C68_b64_short_refuted : forall junk size p f d,
  d <> [] -> (length (b64_text d) <= size)%nat -> contents f p = Some (b64_text d) ->
  forall rest, exists out, length out = (length d + length rest)%nat /\ load_b64 junk size out p f = Some (d ++ rest).
Proof.
  intros junk size p f d D Sz C rest. exists (d ++ rest). split; [apply app_length|].
  apply (C68_b64_loaded_partial junk size (d ++ rest) p f d D C). split; [rewrite app_length; lia|].
  rewrite skipn_app, skipn_all, Nat.sub_diag. reflexivity.
Qed.
Print Assumptions C68_b64_short_refuted.

(** C68: a file that did not exist is private when a secret is stored in it, whatever the umask and wherever writing stops *)
Theorem C68_private_partial : forall umask w p d f,
  f p = None ->
  match fst (store_secret umask w p d f) p with Some (NFile m _) => private m | Some _ => False | None => True end.
Proof.
  intros umask w p d f E. unfold store_secret, write_file. rewrite E. destruct w; cbn [fst]; rewrite ?fset_same, ?E; auto using private_secret.
Qed.
Print Assumptions C68_private_partial.

(** C68 fails: a file that anybody can read keeps that when a secret is stored in it *)
Theorem C68_existing_refuted : forall umask p d f old,
  f p = Some (NFile M_PUBLIC old) ->
  store_secret umask WAll p d f = (fset f p (NFile M_PUBLIC d), true) /\ readable_by_all M_PUBLIC.
Proof. intros umask p d f old E. unfold store_secret, write_file. rewrite E. split; reflexivity. Qed.
Print Assumptions C68_existing_refuted.

(** C68: nothing but the file named is changed *)
Theorem C68_only_there : forall umask w p d f q,
  q <> p -> fst (store_secret umask w p d f) q = f q /\ fst (store_public umask w p d f) q = f q.
Proof. intros. unfold store_secret, store_public. rewrite !write_other by assumption. auto. Qed.
Print Assumptions C68_only_there.

(** * Cases *)

Definition three_bytes : bytes := [x61; x62; x63].
Definition disk : fs := fun p => if String.eqb p "psk" then Some (NFile M_PUBLIC (b64_text three_bytes)) else None.
(** A file with [YWJj], three bytes, read as a key of five *)
Example C68_short_case : forall junk r1 r2,
  load_b64 junk 53 [x00; x00; x00; r1; r2] "psk"%string disk = Some (three_bytes ++ [r1; r2]).
Proof. reflexivity. Qed.
Example C68_text_case : b64_text (list_byte_of_string "Hello, World!"%string) = list_byte_of_string "SGVsbG8sIFdvcmxkIQ=="%string.
Proof. reflexivity. Qed.
Example C68_roundtrip_case :
  snd (store_secret 18 WAll "sk"%string three_bytes disk) = true /\ disk "sk"%string = None /\
  snd (store_b64 M_SECRET 18 53 WAll "sk"%string three_bytes disk) = true.
Proof. repeat split. Qed.
