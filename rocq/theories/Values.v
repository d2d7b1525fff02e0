(** Values and how they are written down: constants from type-level numbers (util/src/typenum.rs), keys in configuration
    and messages of serde (secret-memory/src/serialization.rs) and the text that debugging prints
    (secret-memory/src/debug.rs, secret.rs, public.rs, util/src/fmt/debug.rs). *)
From Coq Require Import ZArith.
From Verif Require Import Base Files.

(** * util/src/typenum.rs, to which the line numbers of this section refer *)

(** The library typenum: [UTerm], [UInt<U, B>], and [Z0], [PInt<U>], [NInt<U>].  [UInt<U, B>] stands for twice [U] and the bit.
    Types with leading zeros, which the library never makes, are included.  No code in /repo: the library. *)
Inductive tuint := UTerm | UInt (rest : tuint) (bit : bool).
Inductive tnum := TU (u : tuint) | TZ0 | TP (u : tuint) | TN (u : tuint).

(** What the types stand for, as typenum documents it  No code in /repo: the library. *)
Fixpoint uint_val (u : tuint) : Z :=
  match u with UTerm => 0 | UInt r b => 2 * uint_val r + (if b then 1 else 0) end%Z.
(** No code in /repo: the library. *)
Definition num_val (t : tnum) : Z :=
  match t with TU u => uint_val u | TZ0 => 0 | TP u => uint_val u | TN u => - uint_val u end%Z.

(** A primitive integer type of Rust: whether it is signed, and how many bits it has  No code in /repo: Rust. *)
Record ity := { i_signed : bool; i_bits : Z }.
(** No code in /repo: Rust. *)
Definition i_min (t : ity) : Z := if i_signed t then - 2 ^ (i_bits t - 1) else 0%Z.
(** No code in /repo: Rust. *)
Definition i_max (t : ity) : Z := if i_signed t then 2 ^ (i_bits t - 1) - 1 else (2 ^ i_bits t - 1)%Z.
(** A number cut to the bits of the type, as [as] does it  No code in /repo: used at util/src/typenum.rs 178-190. *)
Definition i_wrap (t : ity) (v : Z) : Z := (i_min t + (v - i_min t) mod 2 ^ i_bits t)%Z.
(** Arithmetic in a constant: what overflows does not compile, which is [None].  No code in /repo: Rust. *)
Definition i_checked (t : ity) (v : Z) : option Z :=
  if (i_min t <=? v)%Z && (v <=? i_max t)%Z then Some v else None.
(** typenum.rs 126-130 [ConstLshift]: [<<] only complains if the number of bits to shift by is too big; bits shifted out are dropped. *)
Definition i_shl (t : ity) (v k : Z) : option Z :=
  if (0 <=? k)%Z && (k <? i_bits t)%Z then Some (i_wrap t (v * 2 ^ k)) else None.
Definition i_add (t : ity) (a b : Z) : option Z := i_checked t (a + b)%Z.
Definition i_neg (t : ity) (a : Z) : option Z := i_checked t (- a)%Z.

(** typenum.rs 100-103, 153-155, 174-176 [AssociatedUnsigned] *)
Definition i_unsigned (t : ity) : ity := {| i_signed := false; i_bits := i_bits t |}.
(** [(1 as $unsigned).rotate_right(1)] *)
Definition i_top (t : ity) : Z := (2 ^ (i_bits t - 1))%Z.

(** No code in /repo: [None] stays [None]. *)
Definition obindz (x : option Z) (f : Z -> option Z) : option Z := match x with Some a => f a | None => None end.

(** typenum.rs 200-210, with 121-124 and 126-137 *)
Fixpoint uint_const (t : ity) (u : tuint) : option Z :=
  match u with
  | UTerm => Some 0%Z
  | UInt r b => obindz (uint_const t r) (fun v => obindz (i_shl t v 1) (fun v => i_add t v (if b then 1 else 0)%Z))
  end.
(** typenum.rs 212-220: [PInt] (157-159 for unsigned types, 178-180 for signed types) *)
Definition pos_const (t : ity) (u : tuint) : option Z :=
  obindz (uint_const (i_unsigned t) u) (fun v => Some (if i_signed t then i_wrap t v else v)).
(** typenum.rs 222-230: [NInt] (182-190); there is none for unsigned types. *)
Definition neg_const (t : ity) (u : tuint) : option Z :=
  if i_signed t
  then obindz (uint_const (i_unsigned t) u) (fun v => if (v =? i_top t)%Z then Some (i_min t) else i_neg t (i_wrap t v))
  else None.
(** typenum.rs 24-31 [typenum2const!]: [None] if it does not compile *)
Definition typenum2const (t : ity) (n : tnum) : option Z :=
  match n with TU u => uint_const t u | TZ0 => Some 0%Z | TP u => pos_const t u | TN u => neg_const t u end.

(** * secret-memory/src/serialization.rs, to which the line numbers of this section refer *)

(** What a document of a format like JSON or TOML has in a place: a string, of which this model keeps the bytes, or anything else  No code in /repo: serde, behind secret-memory/src/serialization.rs 7-95. *)
Inductive item := IStr (t : bytes) | IOther.
(** serialization.rs 7-9 [encode_b64], 36-38, 58-60, 78-80 [serialize] of [Secret], [Public] and [PublicBox] *)
Definition serialize (d : bytes) : item := IStr (b64_text d).
(** serialization.rs 11-15 [decode_b64]: the engine [STANDARD] of the library base64 wants padding and no bits left over.
    26-32 [B64BytesVisitor]: nothing but a string is taken. *)
Definition visit (i : item) : option bytes := match i with IStr t => b64_data t | IOther => None end.
(** serialization.rs 42-54, 64-74, 84-97 [deserialize] of a value of [n] bytes *)
Definition deserialize (n : nat) (i : item) : option bytes :=
  match visit i with
  | Some d => if negb (Nat.eqb (length d) n) then None else Some d
  | None => None
  end.

(** * What is printed for debugging *)

(** No code in /repo: std [LowerHex], used at secret-memory/src/debug.rs 29-60. *)
Definition hex_digit (n : N) : byte := n2b (if N.ltb n 10 then 48 + n else 87 + n)%N.
(** [LowerHex::fmt] of a byte under the flags of [{:?}]: no width, so no zero in front  No code in /repo: std. *)
Definition hex_byte (b : byte) : bytes :=
  let n := b2n b in if N.ltb n 16 then [hex_digit n] else [hex_digit (n / 16); hex_digit (n mod 16)].
(** debug.rs 30: the text "[{}]=" *)
Definition debug_head : bytes := map n2b [91; 123; 125; 93; 61]%N.
(** debug.rs 35: the character U+2026 in UTF-8 *)
Definition ellipsis : bytes := map n2b [226; 128; 166]%N.
(** debug.rs 29-45 [debug_crypto_array]; public.rs 66-71, 257-262 [Debug] of [Public] and [PublicBox] *)
Definition debug_public (v : bytes) : bytes :=
  debug_head ++
  (if Nat.ltb 64 (length v)
   then flat_map hex_byte (firstn 32 v) ++ ellipsis ++ flat_map hex_byte (skipn (length v - 32) v)
   else flat_map hex_byte v).
(** secret.rs 279-283 [Debug] of [Secret]: the text "<SECRET>" *)
Definition debug_secret (v : bytes) : bytes := map n2b [60; 83; 69; 67; 82; 69; 84; 62]%N.
(** util/src/fmt/debug.rs 31-38 [Debug] of [NullDebug<T>] for a type with the given name: the text "NullDebug<", the name, ">" *)
Definition debug_null (type_name value : bytes) : bytes :=
  map n2b [78; 117; 108; 108; 68; 101; 98; 117; 103; 60]%N ++ type_name ++ [n2b 62%N].
