(** The program that generates the numbers of the API message types, rosenpass/src/bin/gen-ipc-msg-types.rs, to which the line numbers
    refer, and the hash function it uses. *)
From Coq Require Import Strings.String.
From Verif Require Import Base Prims Ciphers.
Local Open Scope list_scope.

(** * BLAKE2b, RFC 7693

    No code in /repo: the library blake2, used at ciphers/src/subtle/rust_crypto/blake2b.rs 24-41.  The sections of RFC 7693 are cited. *)

(** 2.1: words of 64 bits  No code in /repo: RFC 7693. *)
Definition wcut (a : N) : N := N.land a 0xFFFFFFFFFFFFFFFF.
Definition wadd (a b : N) : N := wcut (a + b).
Definition wrotr (a : N) (n : N) : N := N.lor (N.shiftr a n) (wcut (N.shiftl a (64 - n))).
(** 2.6: the initialization vector  No code in /repo: RFC 7693. *)
Definition biv : list N :=
  [ 0x6A09E667F3BCC908; 0xBB67AE8584CAA73B; 0x3C6EF372FE94F82B; 0xA54FF53A5F1D36F1;
    0x510E527FADE682D1; 0x9B05688C2B3E6C1F; 0x1F83D9ABFB41BD6B; 0x5BE0CD19137E2179 ]%N.
(** 2.7: the message schedule  No code in /repo: RFC 7693. *)
Definition bsigma : list (list nat) :=
  [ [ 0; 1; 2; 3; 4; 5; 6; 7; 8; 9; 10; 11; 12; 13; 14; 15 ];
    [ 14; 10; 4; 8; 9; 15; 13; 6; 1; 12; 0; 2; 11; 7; 5; 3 ];
    [ 11; 8; 12; 0; 5; 2; 15; 13; 10; 14; 3; 6; 7; 1; 9; 4 ];
    [ 7; 9; 3; 1; 13; 12; 11; 14; 2; 6; 5; 10; 4; 0; 15; 8 ];
    [ 9; 0; 5; 7; 2; 4; 10; 15; 14; 1; 11; 12; 6; 8; 3; 13 ];
    [ 2; 12; 6; 10; 0; 11; 8; 3; 4; 13; 7; 5; 15; 14; 1; 9 ];
    [ 12; 5; 1; 15; 14; 13; 4; 10; 0; 7; 6; 3; 9; 2; 8; 11 ];
    [ 13; 11; 7; 14; 12; 1; 3; 9; 5; 0; 15; 4; 8; 6; 2; 10 ];
    [ 6; 15; 14; 9; 11; 3; 0; 8; 12; 2; 13; 7; 1; 4; 10; 5 ];
    [ 10; 2; 8; 4; 7; 6; 1; 5; 15; 11; 9; 14; 3; 12; 13; 0 ] ].
(** The [i]th word, and a list with the [i]th word replaced  No code in /repo: RFC 7693. *)
Definition word (v : list N) (i : nat) : N := nth i v 0%N.
Fixpoint upd (v : list N) (i : nat) (x : N) : list N :=
  match v, i with [], _ => [] | _ :: v, O => x :: v | y :: v, S i => y :: upd v i x end.
(** 3.1: the mixing function  No code in /repo: RFC 7693. *)
Definition bmix (v : list N) (a b c d : nat) (x y : N) : list N :=
  let v := upd v a (wadd (wadd (word v a) (word v b)) x) in
  let v := upd v d (wrotr (N.lxor (word v d) (word v a)) 32) in
  let v := upd v c (wadd (word v c) (word v d)) in
  let v := upd v b (wrotr (N.lxor (word v b) (word v c)) 24) in
  let v := upd v a (wadd (wadd (word v a) (word v b)) y) in
  let v := upd v d (wrotr (N.lxor (word v d) (word v a)) 16) in
  let v := upd v c (wadd (word v c) (word v d)) in
  upd v b (wrotr (N.lxor (word v b) (word v c)) 63).
(** 3.2: one round  No code in /repo: RFC 7693. *)
Definition bround (m v : list N) (i : nat) : list N :=
  let s := nth (i mod 10) bsigma [] in
  let x k := word m (nth k s 0) in
  let v := bmix v 0 4 8 12 (x 0) (x 1) in
  let v := bmix v 1 5 9 13 (x 2) (x 3) in
  let v := bmix v 2 6 10 14 (x 4) (x 5) in
  let v := bmix v 3 7 11 15 (x 6) (x 7) in
  let v := bmix v 0 5 10 15 (x 8) (x 9) in
  let v := bmix v 1 6 11 12 (x 10) (x 11) in
  let v := bmix v 2 7 8 13 (x 12) (x 13) in
  bmix v 3 4 9 14 (x 14) (x 15).
(** The words of a block  No code in /repo: RFC 7693, 2.4. *)
Definition bwords (block : bytes) : list N := map (fun i => le_dec (firstn 8 (skipn (8 * i) block))) (seq 0 16).
(** 3.2: the compression function; [t] bytes were fed in so far, [last]: this is the last block.  No code in /repo: RFC 7693. *)
Definition bcompress (h : list N) (block : bytes) (t : N) (last : bool) : list N :=
  let v := h ++ biv in
  let v := upd v 12 (N.lxor (word v 12) (wcut t)) in
  let v := upd v 13 (N.lxor (word v 13) (N.shiftr t 64)) in
  let v := if last then upd v 14 (N.lxor (word v 14) 0xFFFFFFFFFFFFFFFF) else v in
  let v := fold_left (bround (bwords block)) (seq 0 12) v in
  map (fun i => N.lxor (N.lxor (word h i) (word v i)) (word v (i + 8))) (seq 0 8).
(** A block filled up with zeros  No code in /repo: RFC 7693, 3.3. *)
Definition bpad (l : bytes) : bytes := l ++ zeros (128 - length l).
(** 3.3: all blocks; the last one may be shorter.  No code in /repo: RFC 7693. *)
Fixpoint bblocks (fuel : nat) (h : list N) (t : N) (d : bytes) : list N :=
  match fuel with
  | O => bcompress h (bpad d) (t + N.of_nat (length d)) true
  | S n => if Nat.leb (length d) 128 then bcompress h (bpad d) (t + N.of_nat (length d)) true
           else bblocks n (bcompress h (firstn 128 d) (t + 128) false) (t + 128) (skipn 128 d)
  end.
(** 3.3: the hash of [nn] bytes of the data under the key  No code in /repo: RFC 7693. *)
Definition blake2b (nn : nat) (key data : bytes) : bytes :=
  let d := (if Nat.eqb (length key) 0 then [] else bpad key) ++ data in
  let h := upd biv 0 (N.lxor (word biv 0) (N.lxor 0x01010000 (N.lxor (N.shiftl (N.of_nat (length key)) 8) (N.of_nat nn)))) in
  firstn nn (flat_map (le_enc 8) (bblocks (length d) h 0 d)).

(** * The generator *)

(** 45-48 [Tree] *)
Inductive tree := Branch (name : bytes) (children : list tree) | Leaf (name : bytes).
(** 50-55 [Tree::name] *)
Definition name (t : tree) : bytes := match t with Branch n _ => n | Leaf n => n end.

Section Backend.
Variable b : backend.

(** 8-13 [calculate_hash_value] *)
Fixpoint calculate_hash_value (a : halg) (hd : bytes) (values : list bytes) : bytes :=
  match values with
  | head :: tail => calculate_hash_value a (keyed_hash b a hd head) tail
  | [] => hd
  end.

(** [hex::encode]  No code in /repo: used at 26. *)
Definition hexdigit (n : N) : byte := nth (N.to_nat n) (str "0123456789abcdef") x00.
Definition hex_encode (l : bytes) : bytes := flat_map (fun x => [hexdigit (b2n x / 16); hexdigit (b2n x mod 16)])%N l.
(** 26-30: the digits in groups of four; [chunks_exact] drops what is left over. *)
Fixpoint chunks4 (l : bytes) : list bytes :=
  match l with x :: y :: z :: w :: l => [x; y; z; w] :: chunks4 l | _ => [] end.
(** 31-34: what is between the quotation marks of the literal.  [c[i]] panics if there are not enough groups, which cannot be, as there
    are 16. *)
Definition literal_text (val : bytes) : bytes :=
  let c i := nth i (chunks4 (hex_encode val)) [] in
  c 0 ++ str " " ++ c 1 ++ str " " ++ c 2 ++ str " " ++ c 3 ++ str "    " ++ c 4 ++ str " " ++ c 5 ++ str " " ++ c 6 ++ str " " ++ c 7.
(** What is printed for one leaf: the hash and the path, as in the comment (20-24), and the literal; 16-37 [print_literal].  The name of
    the constant is left out. *)
Record printed := { pr_hash : halg; pr_path : list bytes; pr_literal : bytes }.
Definition print_literal (path : list bytes) (a : halg) : printed :=
  {| pr_hash := a; pr_path := path; pr_literal := literal_text (calculate_hash_value a (zeros 32) path) |}.

(** 57-71 [gen_code_inner]; 73-75 [gen_code] is this with the empty prefix. *)
Fixpoint gen_code_inner (prefix : list bytes) (a : halg) (t : tree) : list printed :=
  let path := prefix ++ [name t] in
  match t with
  | Branch _ children => flat_map (gen_code_inner path a) children
  | Leaf _ => [print_literal path a]
  end.
Definition gen_code (a : halg) (t : tree) : list printed := gen_code_inner [] a t.

(** 80-96 *)
Definition api_tree : tree :=
  Branch (str "Rosenpass IPC API")
    [Branch (str "Rosenpass Protocol Server")
       [Leaf (str "Ping Request"); Leaf (str "Ping Response"); Leaf (str "Supply Keypair Request"); Leaf (str "Supply Keypair Response");
        Leaf (str "Add Listen Socket Request"); Leaf (str "Add Listen Socket Response");
        Leaf (str "Add Psk Broker Request"); Leaf (str "Add Psk Broker Response")]].
(** 79-101 [main] *)
Definition gen_main : list printed := gen_code Shake api_tree ++ gen_code Blake api_tree.

End Backend.
