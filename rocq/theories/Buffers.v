(** Views of buffers: util/src/zerocopy/ref_maker.rs, zerocopy_slice_ext.rs and zerocopy_ref_ext.rs, and the messages of
    the API that are set up in a buffer of the caller: rosenpass/src/api/boilerplate/message_trait.rs, payload.rs and
    request_response.rs.

    A [RefMaker<B, T>] over a part of a buffer is given by where the part starts and how long it is; [n] is the size of [T].
    Buffers are aligned as zerocopy demands. *)
From Verif Require Import Base Api.

(** No code in /repo: a Rust slice of the buffer, as util/src/zerocopy/ref_maker.rs 58-346 hands it on *)
Record part := { pt_off : nat; pt_len : nat }.
Definition whole (buf : bytes) : part := {| pt_off := 0; pt_len := length buf |}.
Definition part_bytes (buf : bytes) (p : part) : bytes := firstn (pt_len p) (skipn (pt_off p) buf).
(** A write through a view  No code in /repo: Rust. *)
Definition part_set (buf : bytes) (p : part) (d : bytes) : bytes :=
  firstn (pt_off p) buf ++ d ++ skipn (pt_off p + pt_len p) buf.

(** ref_maker.rs 146-154 [ensure_fit] *)
Definition ensure_fit (n : nat) (p : part) : bool := Nat.leb n (pt_len p).
(** ref_maker.rs 177-186 [split_at_point]; [split_at] of zerocopy fails if the point is behind the end. *)
Definition split_at_point (n point : nat) (p : part) : option (part * part) :=
  if ensure_fit n p
  then if Nat.leb point (pt_len p)
       then Some ({| pt_off := pt_off p; pt_len := point |}, {| pt_off := pt_off p + point; pt_len := pt_len p - point |})
       else None
  else None.
(** ref_maker.rs 226-230 [split_prefix] and 203-207 [from_prefix_with_tail], which differ in the type of the tail *)
Definition split_prefix (n : nat) (p : part) : option (part * part) :=
  if ensure_fit n p then split_at_point n n p else None.
(** ref_maker.rs 245-247 [from_prefix] *)
Definition from_prefix (n : nat) (p : part) : option part :=
  match split_prefix n p with Some (h, _) => Some h | None => None end.
(** ref_maker.rs 287-292 [split_suffix] and 264-269 [from_suffix_with_head]: the subtraction comes after the check. *)
Definition split_suffix (n : nat) (p : part) : option (part * part) :=
  if ensure_fit n p then split_at_point n (pt_len p - n) p else None.
(** ref_maker.rs 307-309 [from_suffix] *)
Definition from_suffix (n : nat) (p : part) : option part :=
  match split_suffix n p with Some (_, t) => Some t | None => None end.

(** ref_maker.rs 120-128 [parse]: a [Ref] has exactly the size of its type. *)
Definition make_ref (n : nat) (p : part) : option part :=
  if ensure_fit n p then if Nat.eqb (pt_len p) n then Some p else None else None.
(** zerocopy_slice_ext.rs 55-60, 86-92, 118-124 [zk_parse], [zk_parse_prefix], [zk_parse_suffix] *)
Definition parse_whole (n : nat) (buf : bytes) : option part := make_ref n (whole buf).
Definition parse_prefix (n : nat) (buf : bytes) : option part := obind (from_prefix n (whole buf)) (make_ref n).
Definition parse_suffix (n : nat) (buf : bytes) : option part := obind (from_suffix n (whole buf)) (make_ref n).
(** zerocopy_ref_ext.rs 70-72, 80-82 [emancipate], [emancipate_mut] of a [Ref]: [Panic] if it is not of the size *)
Definition emancipate (n : nat) (p : part) : res unit part := if Nat.eqb (pt_len p) n then Ok p else Panic.

(** ref_maker.rs 332-337 [make_zeroized]: the part is filled with zeros before it is parsed. *)
Definition make_zeroized (n : nat) (buf : bytes) (p : part) : bytes * option part :=
  (part_set buf p (zeros (pt_len p)), make_ref n p).
(** zerocopy_slice_ext.rs 157-162, 188-194, 220-226 *)
Definition zeroized_whole (n : nat) (buf : bytes) : bytes * option part := make_zeroized n buf (whole buf).
Definition zeroized_prefix (n : nat) (buf : bytes) : bytes * option part :=
  match from_prefix n (whole buf) with Some p => make_zeroized n buf p | None => (buf, None) end.
Definition zeroized_suffix (n : nat) (buf : bytes) : bytes * option part :=
  match from_suffix n (whole buf) with Some p => make_zeroized n buf p | None => (buf, None) end.

(** payload.rs 64-66 and likewise for the others [init]: the type is written over the first 16 bytes. *)
Definition init (s : side) (k : kind) (buf : bytes) (p : part) : bytes :=
  part_set buf {| pt_off := pt_off p; pt_len := 16 |} (le_enc 16 (raw_of s k)).
(** payload.rs 58-62 and likewise for the others [setup], on a part of a buffer; message_trait.rs 72-74 [setup_msg] *)
Definition setup (s : side) (k : kind) (buf : bytes) (p : part) : bytes * option part :=
  match make_zeroized (message_size s k) buf p with
  | (buf, Some r) => (init s k buf r, Some r)
  | (buf, None) => (buf, None)
  end.
(** request_response.rs 20-22 [setup_response] of a request of kind [k] *)
Definition setup_response (k : kind) (buf : bytes) : bytes * option part := setup Resp k buf (whole buf).
(** request_response.rs 25-29 [setup_response_from_prefix] *)
Definition setup_response_from_prefix (k : kind) (buf : bytes) : bytes * option part :=
  match from_prefix (message_size Resp k) (whole buf) with Some p => setup Resp k buf p | None => (buf, None) end.
(** request_response.rs 32-36 [setup_response_from_suffix]: line 35 has [from_prefix]. *)
Definition setup_response_from_suffix (k : kind) (buf : bytes) : bytes * option part :=
  match from_prefix (message_size Resp k) (whole buf) with Some p => setup Resp k buf p | None => (buf, None) end.
