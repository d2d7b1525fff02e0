(** Model of the crates [ciphers], [cipher-traits] and [to], as far as they stand between the protocol and the libraries:
    authenticated encryption over caller's buffers, the keyed hashes, and copying to a destination. *)
From Verif Require Import Base ConstTime Prims.

(** * The libraries *)

(** The functions of the libraries with the lengths their types guarantee.
    [blake]: [blake2::Blake2bMac<U32>] with a key and data.  [shake d n]: the first [n] bytes [Shake256] gives for [d].
    [keystream v k n i] and [tag v k n ad c]: ChaCha20-Poly1305 ([v = false]) and XChaCha20-Poly1305 ([v = true]) are the combination of a
    stream cipher with an authenticator of the ciphertext (RFC 8439, 2.8): [encrypt_in_place_detached] xors the buffer with the
    key stream and returns the tag; [decrypt_in_place_detached] compares the tag and, only if it is right, xors.
    [fits n]: whether they accept a message of [n] bytes; they refuse some that have 2^38 bytes or so.  No code in /repo: the libraries. *)
Record backend := {
  blake : bytes -> bytes -> bytes;
  shake : bytes -> nat -> bytes;
  keystream : bool -> bytes -> bytes -> nat -> bytes;
  tag : bool -> bytes -> bytes -> bytes -> bytes -> bytes;
  fits : nat -> bool;
  blake_len : forall k d, length (blake k d) = 32;
  shake_len : forall d n, length (shake d n) = n;
  keystream_len : forall v k n i, length (keystream v k n i) = i;
  tag_len : forall v k n ad c, length (tag v k n ad c) = 16
}.

(** * Copying, to/src/ops.rs.  The result is what is in the destination afterwards *)

(** to/src/ops.rs 23-28 [copy_slice]: [copy_from_slice] panics unless the lengths are equal; [None]: it panics *)
Definition copy_slice (src dst : bytes) : option bytes := if Nat.eqb (length src) (length dst) then Some src else None.
(** to/src/ops.rs 51-56 [copy_slice_least_src]: taking [..origin.len()] of the destination panics if it is shorter *)
Definition copy_slice_least_src (src dst : bytes) : option bytes :=
  if Nat.leb (length src) (length dst)
  then match copy_slice src (firstn (length src) dst) with Some x => Some (x ++ skipn (length src) dst) | None => None end
  else None.
(** to/src/ops.rs 74-82 [copy_slice_least] *)
Definition copy_slice_least (src dst : bytes) : option bytes :=
  let len := Nat.min (length src) (length dst) in
  match copy_slice (firstn len src) (firstn len dst) with Some x => Some (x ++ skipn len dst) | None => None end.
(** to/src/ops.rs 105-112 [try_copy_slice] and 140-147 [try_copy_slice_least_src]: destination, and whether [Some] is returned *)
Definition try_copy_slice (src dst : bytes) : option (bytes * bool) :=
  if Nat.eqb (length src) (length dst) then match copy_slice src dst with Some x => Some (x, true) | None => None end else Some (dst, false).
Definition try_copy_slice_least_src (src dst : bytes) : option (bytes * bool) :=
  if Nat.leb (length src) (length dst) then match copy_slice_least_src src dst with Some x => Some (x, true) | None => None end else Some (dst, false).

(** * Authenticated encryption *)

(** cipher-traits/src/primitives/aead.rs 160-175 *)
Inductive aead_error := InternalError | DecryptError | InvalidLengths.
Definition TAG_LEN : nat := 16.
(** algorithms.rs 58, 76 *)
Definition NONCE_LEN (v : bool) : nat := if v then 24 else 12.

Section Backend.
Variable b : backend.

(** chacha20poly1305_ietf.rs 18-46 and xchacha20poly1305_ietf.rs 19-47 [encrypt]: the buffer for the ciphertext afterwards, and the
    result.  That keys and nonces have the right length is in their types. *)
Definition encrypt (v : bool) (buf key nonce ad plain : bytes) : bytes * res aead_error unit :=
  if Nat.ltb (length buf) TAG_LEN || Nat.ltb (length buf - TAG_LEN) (length plain) then (buf, Err InvalidLengths)
  else
    let ct := firstn (length buf - TAG_LEN) buf in
    let mac := skipn (length buf - TAG_LEN) buf in
    match copy_slice plain ct with
    | None => (buf, Panic)
    | Some ct =>
        if fits b (length ct) then
          let c := xor_loop (keystream b v key nonce (length ct)) ct in
          match copy_slice (tag b v key nonce ad c) mac with
          | Some mac => (c ++ mac, Ok tt)
          | None => (c ++ mac, Panic)
          end
        else (ct ++ mac, Err InternalError)
    end.
(** chacha20poly1305_ietf.rs 48-76 and 49-76 [decrypt]: the buffer for the plaintext afterwards, and the result.  The libraries refuse with one error, which is
    [DecryptError] here. *)
Definition decrypt (v : bool) (buf key nonce ad cipher : bytes) : bytes * res aead_error unit :=
  if Nat.ltb (length cipher) TAG_LEN || Nat.ltb (length cipher - TAG_LEN) (length buf) then (buf, Err InvalidLengths)
  else
    let ct := firstn (length cipher - TAG_LEN) cipher in
    let mac := skipn (length cipher - TAG_LEN) cipher in
    match copy_slice ct buf with
    | None => (buf, Panic)
    | Some buf =>
        if fits b (length buf) && bytes_eqb mac (tag b v key nonce ad buf)
        then (xor_loop (keystream b v key nonce (length buf)) buf, Ok tt)
        else (buf, Err DecryptError)
    end.
(** cipher-traits/src/primitives/aead.rs 100-120 [encrypt_with_nonce_in_ctxt]  xchacha20poly1305_ietf.rs 109-119 *)
Definition encrypt_with_nonce (v : bool) (buf key nonce ad plain : bytes) : bytes * res aead_error unit :=
  if Nat.ltb (length buf) (NONCE_LEN v + TAG_LEN) || Nat.ltb (length buf - TAG_LEN - NONCE_LEN v) (length plain) then (buf, Err InvalidLengths)
  else
    match copy_slice nonce (firstn (NONCE_LEN v) buf) with
    | None => (buf, Panic)
    | Some n => let (rest, r) := encrypt v (skipn (NONCE_LEN v) buf) key nonce ad plain in (n ++ rest, r)
    end.
(** cipher-traits/src/primitives/aead.rs 126-147 [decrypt_with_nonce_in_ctxt]  xchacha20poly1305_ietf.rs 153-162 *)
Definition decrypt_with_nonce (v : bool) (buf key ad cipher : bytes) : bytes * res aead_error unit :=
  if Nat.ltb (length cipher) (NONCE_LEN v + TAG_LEN) || Nat.ltb (length cipher - TAG_LEN - NONCE_LEN v) (length buf) then (buf, Err InvalidLengths)
  else decrypt v buf key (firstn (NONCE_LEN v) cipher) ad (skipn (NONCE_LEN v) cipher).

(** * Keyed hashes *)

(** incorrect_hmac_blake2b.rs 53 *)
Definition IPAD : bytes := repeat x36 32.
(** incorrect_hmac_blake2b.rs 54 *)
Definition OPAD : bytes := repeat x5c 32.
(** custom/incorrect_hmac_blake2b.rs 48-69 [IncorrectHmacBlake2bCore::keyed_hash]; the [xor]s panic only if the key does not have 32
    bytes, which is in its type; the result has 32 bytes and replaces the whole of [out].  blake2b.rs 24-41 adds nothing.  ciphers/src/subtle/rust_crypto/blake2b.rs 21-42 is the function of the library. *)
Definition hmac_blake (key data : bytes) : bytes :=
  let outer := blake b (xor_loop IPAD key) data in
  blake b (xor_loop OPAD key) outer.
(** rust_crypto/keyed_shake256.rs 43-63, with both lengths 32  keyed_shake256.rs 67-80 *)
Definition shake_keyed (key data : bytes) : bytes := shake b (key ++ data) 32.
(** keyed_hash.rs 43-55 [KeyedHash::keyed_hash] *)
Definition keyed_hash (a : halg) (key data : bytes) : bytes :=
  match a with Shake => shake_keyed key data | Blake => hmac_blake key data end.

(** * The primitives of the protocol model *)

(** What encryption computes, without buffers: used to instantiate the primitives of Prims.v; PCiphers.v shows that [encrypt] and
    [decrypt] compute it for buffers of the right size  chacha20poly1305_ietf.rs 18-46 *)
Definition sealed (v : bool) (key nonce ad plain : bytes) : bytes :=
  let c := xor_loop (keystream b v key nonce (length plain)) plain in c ++ tag b v key nonce ad c.
(** chacha20poly1305_ietf.rs 48-76 *)
Definition opened (v : bool) (key nonce ad cipher : bytes) : option bytes :=
  let c := firstn (length cipher - TAG_LEN) cipher in
  if Nat.leb TAG_LEN (length cipher) && bytes_eqb (skipn (length cipher - TAG_LEN) cipher) (tag b v key nonce ad c)
  then Some (xor_loop (keystream b v key nonce (length c)) c) else None.

Lemma keyed_hash_len a k d : length (keyed_hash a k d) = 32.
Proof. destruct a; [apply shake_len|apply blake_len]. Qed.
Lemma sealed_len v k n ad p : length (sealed v k n ad p) = length p + 16.
Proof. unfold sealed. rewrite app_length, tag_len, xor_loop_length by apply keystream_len. reflexivity. Qed.
Lemma opened_len v k n ad c p : opened v k n ad c = Some p -> length c = length p + 16.
Proof.
  unfold opened. intros H. destruct (Nat.leb_spec TAG_LEN (length c)) as [L|L]; [|discriminate H]. cbn [andb] in H.
  destruct (bytes_eqb _ _); [|discriminate H]. match type of H with Some ?x = _ => assert (x = p) by congruence end. subst p.
  rewrite xor_loop_length by apply keystream_len. rewrite firstn_length. unfold TAG_LEN in *. lia.
Qed.
(** The primitives of the protocol, with the key encapsulation of [K] (oqs/src/kem_macro.rs hands over to the library)  No code in /repo: gathers the functions above. *)
Definition prims_of (K : prims) : prims := {|
  khash := keyed_hash;
  skem_pk := skem_pk K; skem_enc := skem_enc K; skem_dec := skem_dec K;
  ekem_gen := ekem_gen K; ekem_enc := ekem_enc K; ekem_dec := ekem_dec K;
  aead_enc := sealed false; aead_dec := opened false;
  xaead_enc := sealed true; xaead_dec := opened true;
  khash_len := keyed_hash_len;
  skem_ct_len := skem_ct_len K; ekem_pk_len := ekem_pk_len K; ekem_ct_len := ekem_ct_len K;
  aead_enc_len := sealed_len false; aead_dec_len := opened_len false;
  xaead_enc_len := sealed_len true; xaead_dec_len := opened_len true
|}.
End Backend.
