(** C113: the numbers of the API messages are what their generator gives for their names. *)
From Coq Require Import Strings.String.
From Verif Require Import Base ConstTime Prims Ciphers Api PApi GenTypes.
Local Open Scope list_scope.

(** * Specification *)

(** The path of names from the root of a tree to a leaf *)
Inductive leads : tree -> list bytes -> Prop :=
| LLeaf n : leads (Leaf n) [n]
| LBranch n cs c p : In c cs -> leads c p -> leads (Branch n cs) (n :: p).

(** What the macro [hex!] makes of a literal: spaces are skipped, two digits are a byte, anything else does not compile. *)
Definition digit_value (c : byte) : option N :=
  let n := b2n c in
  if (48 <=? n)%N && (n <=? 57)%N then Some (n - 48)%N else if (97 <=? n)%N && (n <=? 102)%N then Some (n - 87)%N else None.
Fixpoint read_digits (l : bytes) : option bytes :=
  match l with
  | [] => Some []
  | x :: l => match l with
              | [] => None
              | y :: l => match digit_value x, digit_value y, read_digits l with
                          | Some a, Some b, Some r => Some (n2b (16 * a + b) :: r)
                          | _, _, _ => None
                          end
              end
  end.
Definition not_space (c : byte) : bool := negb (N.eqb (b2n c) 32).
Definition hex_literal (l : bytes) : option bytes := read_digits (filter not_space l).

(** The names *)
Definition verb (s : side) : bytes := match s with Req => str "Request" | Resp => str "Response" end.
Definition noun (k : kind) : bytes :=
  match k with Ping => str "Ping" | SupplyKeypair => str "Supply Keypair" | AddListenSocket => str "Add Listen Socket" | AddPskBroker => str "Add Psk Broker" end.
Definition path_of (s : side) (k : kind) : list bytes :=
  [str "Rosenpass IPC API"; str "Rosenpass Protocol Server"; noun k ++ str " " ++ verb s].

(** * The generator *)

Lemma tree_rect' (Q : tree -> Prop) : (forall n cs, Forall Q cs -> Q (Branch n cs)) -> (forall n, Q (Leaf n)) -> forall t, Q t.
Proof.
  intros B L. fix IH 1. intros [n cs|n]; [|apply L]. apply B. induction cs as [|c cs IHc]; constructor; [apply IH|exact IHc].
Qed.
Lemma inner_paths b a t : forall prefix x, In x (gen_code_inner b prefix a t) <-> exists p, leads t p /\ x = print_literal b (prefix ++ p) a.
Proof.
  induction t as [n cs IH|n] using tree_rect'; intros prefix x; cbn [gen_code_inner name].
  - rewrite in_flat_map. split.
    + intros (c & Ic & H). rewrite Forall_forall in IH. apply IH in H; [|exact Ic]. destruct H as (p & L & ->). exists (n :: p).
      split; [econstructor; eassumption|]. now rewrite <- app_assoc.
    + intros (p & L & ->). inversion L as [|? ? c q Ic Lc]. subst. exists c. split; [exact Ic|]. rewrite Forall_forall in IH. apply IH; [exact Ic|].
      exists q. split; [exact Lc|]. now rewrite <- app_assoc.
  - cbn [In]. split.
    + intros [<-|[]]. exists [n]. split; [constructor|reflexivity].
    + intros (p & L & ->). inversion L. subst. now left.
Qed.
Lemma calculate_fold b a l : forall k, calculate_hash_value b a k l = fold_left (keyed_hash b a) l k.
Proof. induction l as [|x l IH]; intros k; [reflexivity|]. cbn [calculate_hash_value fold_left]. apply IH. Qed.

Lemma hexdigit_value n : (n < 16)%N -> digit_value (hexdigit n) = Some n /\ not_space (hexdigit n) = true.
Proof.
  intros L. rewrite <- (N2Nat.id n). assert (K : N.to_nat n < 16) by lia. generalize (N.to_nat n) K. clear. intros n K.
  do 16 (destruct n as [|n]; [split; reflexivity|]). lia.
Qed.
Lemma read_encoded l : read_digits (hex_encode l) = Some l /\ Forall (fun c => not_space c = true) (hex_encode l).
Proof.
  induction l as [|x l (IH & F)]; [split; [reflexivity|constructor]|].
  pose proof (b2n_lt x) as Lx. assert (D : (b2n x / 16 < 16)%N) by (apply N.div_lt_upper_bound; lia).
  assert (M : (b2n x mod 16 < 16)%N) by (apply N.mod_lt; lia).
  destruct (hexdigit_value _ D) as (Vd & Sd). destruct (hexdigit_value _ M) as (Vm & Sm).
  cbn [hex_encode flat_map List.app]. fold (hex_encode l). split.
  - cbn [read_digits]. rewrite Vd, Vm, IH. rewrite <- N.div_mod', n2b_b2n. reflexivity.
  - constructor; [exact Sd|]. constructor; [exact Sm|exact F].
Qed.
Lemma filter_keep x l r : not_space x = true -> filter not_space l = r -> filter not_space (x :: l) = x :: r.
Proof. intros Q <-. cbn [filter]. now rewrite Q. Qed.
Lemma filter_drop l r : filter not_space l = r -> filter not_space (x20 :: l) = r.
Proof. intros H. exact H. Qed.
Lemma literal_read val : length val = 32 -> hex_literal (literal_text val) = Some (firstn 16 val).
Proof.
  intros L. unfold hex_literal, literal_text.
  do 32 (destruct val as [|? val]; [discriminate L|]). destruct val; [|discriminate L]. clear L. cbn [firstn].
  match goal with |- _ = Some ?l => pose proof (read_encoded l) as (R & F) end. etransitivity; [|exact R]. f_equal. clear R.
  cbn [hex_encode flat_map List.app chunks4 nth]. cbn [hex_encode flat_map List.app] in F.
  change (str " ") with [x20]. change (str "    ") with [x20; x20; x20; x20]. cbn [List.app].
  repeat match goal with
  | |- filter not_space (x20 :: _) = _ => apply filter_drop
  | F : Forall _ (?x :: ?l) |- filter not_space (?x :: _) = ?x :: _ =>
      apply filter_keep; [exact (Forall_inv F)|apply Forall_inv_tail in F]
  end. reflexivity.
Qed.

(** For every tree of names, every hash and every backend: one literal is printed for each leaf, and for nothing else.  In the source it
    is the first half of the hash over the names on the path, where each name is hashed with the hash so far as the key. *)
Theorem C113_generator : forall b a t,
  (forall x, In x (gen_code b a t) <-> exists p, leads t p /\ x = print_literal b p a) /\
  (forall p, leads t p -> pr_hash (print_literal b p a) = a /\ pr_path (print_literal b p a) = p /\
     hex_literal (pr_literal (print_literal b p a)) = Some (firstn 16 (fold_left (keyed_hash b a) p (zeros 32)))).
Proof.
  intros b a t. split; [intros x; apply (inner_paths b a t [] x)|]. intros p L. split; [reflexivity|]. split; [reflexivity|].
  unfold print_literal. cbn [pr_literal]. rewrite calculate_fold. apply literal_read.
  assert (p <> []) as N by (inversion L; discriminate). revert N. generalize (zeros 32). clear L.
  assert (G : forall p k, length k = 32 -> length (fold_left (keyed_hash b a) p k) = 32).
  { intros q. induction q as [|x q IH]; intros k Lk; [exact Lk|]. cbn [fold_left]. apply IH.
    destruct a; cbn [keyed_hash]; [apply shake_len|apply blake_len]. }
  intros k N. destruct p as [|x p]; [contradiction|]. cbn [fold_left]. apply G. destruct a; cbn [keyed_hash]; [apply shake_len|apply blake_len].
Qed.
Print Assumptions C113_generator.

Definition hmac (key d : bytes) : bytes := blake2b 32 (xor_loop OPAD key) (blake2b 32 (xor_loop IPAD key) d).
Definition server_hash : bytes := Eval vm_compute in hmac (hmac (zeros 32) (str "Rosenpass IPC API")) (str "Rosenpass Protocol Server").
Lemma server_hash_is : hmac (hmac (zeros 32) (str "Rosenpass IPC API")) (str "Rosenpass Protocol Server") = server_hash.
Proof. vm_compute. reflexivity. Qed.

(** With the library's BLAKE2b as RFC 7693 defines it, the numbers in the source are the ones that the program prints for the names of
    the messages. *)
Theorem C113_types_are_hashes : forall b, (forall k d, blake b k d = blake2b 32 k d) -> forall s k,
  exists x, In x (gen_main b) /\ pr_hash x = Blake /\ pr_path x = path_of s k /\
    hex_literal (pr_literal x) = Some (code s k) /\ raw_of s k = le_dec (code s k).
Proof.
  intros b H s k. exists (print_literal b (path_of s k) Blake).
  assert (Le : leads api_tree (path_of s k)).
  { unfold path_of, api_tree. eapply LBranch; [left; reflexivity|].
    apply (LBranch _ _ (Leaf (noun k ++ str " " ++ verb s))); [|constructor]. destruct s, k; cbn [In]; auto 10. }
  destruct (C113_generator b Blake api_tree) as (G1 & G2). destruct (G2 _ Le) as (A & B & C).
  split; [unfold gen_main; apply in_or_app; right; apply G1; eexists; split; [exact Le|reflexivity]|].
  split; [exact A|]. split; [exact B|]. split; [|apply raw_code]. rewrite C. f_equal.
  assert (K : forall key d, keyed_hash b Blake key d = hmac key d).
  { intros. cbn [keyed_hash]. unfold hmac_blake. now rewrite !H. }
  unfold path_of. cbn [fold_left]. rewrite !K, server_hash_is. destruct s, k; vm_compute; reflexivity.
Qed.
Print Assumptions C113_types_are_hashes.

(** Non-vacuity: there is such a backend, and the function is the one of the example in the documentation (incorrect_hmac_blake2b.rs
    31-38). *)
Lemma compress_length h bl t l : length (bcompress h bl t l) = 8.
Proof. unfold bcompress. cbv zeta. rewrite map_length. apply seq_length. Qed.
Lemma blocks_length n : forall h t d, length (bblocks n h t d) = 8.
Proof.
  induction n as [|n IH]; intros h t d; cbn [bblocks]; [apply compress_length|].
  destruct (Nat.leb (length d) 128); [apply compress_length|apply IH].
Qed.
Lemma blake2b_length key d : length (blake2b 32 key d) = 32.
Proof.
  unfold blake2b. cbv zeta. rewrite firstn_length. apply Nat.min_l.
  match goal with |- _ <= length (flat_map _ ?l) => assert (L : length l = 8) by apply blocks_length; generalize l L end. intros l E.
  do 4 (destruct l as [|? l]; [discriminate E|]). cbn [flat_map]. rewrite !app_length, !le_enc_length. lia.
Qed.
Definition rfc_backend : backend.
Proof.
  refine {| blake := blake2b 32; shake := fun _ n => zeros n; keystream := fun _ _ _ i => zeros i; tag := fun _ _ _ _ _ => zeros 16; fits := fun _ => true |}.
  - apply blake2b_length.
  - intros _ n. apply zeros_length.
  - intros _ _ _ i. apply zeros_length.
  - intros. apply zeros_length.
Defined.
Example C113_nonvacuous : (forall k d, blake rfc_backend k d = blake2b 32 k d) /\
  keyed_hash rfc_backend Blake (zeros 32) (repeat xff 32) =
    map n2b [5; 152; 135; 141; 151; 106; 147; 8; 220; 95; 38; 66; 29; 33; 3; 104; 250; 114; 131; 119; 27; 56; 59; 44; 11; 67; 230; 113; 112; 20; 80; 103]%N.
Proof. split; [reflexivity|vm_compute; reflexivity]. Qed.
