(** Cryptographic primitives as parameters.

    The record carries, besides the functions, the length facts that the Rust
    types ([u8; N] outputs and fixed size buffers) guarantee.  Correctness laws
    are separate predicates that theorems mention as hypotheses when they
    need them.  Nothing is said about security. *)
From Verif Require Import Base.

(** The two keyed hash functions, ciphers/src/subtle/keyed_hash.rs [KeyedHash]
    ([KeyedShake256], [IncorrectHmacBlake2b]).  ciphers/src/subtle/keyed_hash.rs 20-56 and protocol.rs 153-170, which chooses one. *)
Inductive halg := Shake | Blake.

(** ciphers/src/subtle/keyed_hash.rs 20-26: the derived [PartialEq] *)
Definition halg_eqb (a b : halg) : bool :=
  match a, b with Shake, Shake | Blake, Blake => true | _, _ => false end.
Lemma halg_eqb_eq a b : halg_eqb a b = true <-> a = b.
Proof. destruct a, b; simpl; split; congruence. Qed.

(** Primitive operations, cipher-traits/src/primitives/keyed_hash.rs 20-34, kem.rs 165-204 and aead.rs 53-83.
    KEM key generation and encapsulation take their random bytes as first argument.
    Errors of the underlying libraries other than authentication failure are
    not modelled.  The wrappers ciphers/src/subtle/keyed_hash.rs 40-56 and cipher-traits/src/primitives/keyed_hash.rs 4-31, 46-92, 127-154 only pass these on. *)
Record prims := {
  khash : halg -> bytes -> bytes -> bytes;        (* alg, key, data *)
  skem_pk : bytes -> bytes;                        (* static public key of a secret key *)
  skem_enc : bytes -> bytes -> bytes * bytes;      (* coins, pk -> shared key, ct *)
  skem_dec : bytes -> bytes -> bytes;              (* sk, ct -> shared key *)
  ekem_gen : bytes -> bytes * bytes;               (* coins -> sk, pk *)
  ekem_enc : bytes -> bytes -> bytes * bytes;
  ekem_dec : bytes -> bytes -> bytes;
  aead_enc : bytes -> bytes -> bytes -> bytes -> bytes;         (* key nonce ad pt *)
  aead_dec : bytes -> bytes -> bytes -> bytes -> option bytes;  (* key nonce ad ct *)
  xaead_enc : bytes -> bytes -> bytes -> bytes -> bytes;
  xaead_dec : bytes -> bytes -> bytes -> bytes -> option bytes;
  khash_len : forall a k d, length (khash a k d) = 32;
  skem_ct_len : forall r pk, length (snd (skem_enc r pk)) = 156;
  ekem_pk_len : forall r, length (snd (ekem_gen r)) = 800;
  ekem_ct_len : forall r pk, length (snd (ekem_enc r pk)) = 768;
  aead_enc_len : forall k n ad pt, length (aead_enc k n ad pt) = length pt + 16;
  aead_dec_len : forall k n ad ct pt,
    aead_dec k n ad ct = Some pt -> length ct = length pt + 16;
  xaead_enc_len : forall k n ad pt, length (xaead_enc k n ad pt) = length pt + 16;
  xaead_dec_len : forall k n ad ct pt,
    xaead_dec k n ad ct = Some pt -> length ct = length pt + 16
}.

(** Functional correctness of the primitives: what the documentation of kem.rs 165-204 and aead.rs 53-83 promises. *)
Record correct (P : prims) : Prop := {
  skem_correct : forall r sk,
    skem_dec P sk (snd (skem_enc P r (skem_pk P sk))) = fst (skem_enc P r (skem_pk P sk));
  ekem_correct : forall r r',
    ekem_dec P (fst (ekem_gen P r')) (snd (ekem_enc P r (snd (ekem_gen P r'))))
    = fst (ekem_enc P r (snd (ekem_gen P r')));
  aead_correct : forall k n ad pt, aead_dec P k n ad (aead_enc P k n ad pt) = Some pt;
  xaead_correct : forall k n ad pt, xaead_dec P k n ad (xaead_enc P k n ad pt) = Some pt
}.

(** cipher-traits/src/primitives/aead.rs:100-120 [encrypt_with_nonce_in_ctxt]:
    nonce, then ciphertext.  The length check always passes for the
    fixed-size buffers used by the callers. *)
Definition xenc (P : prims) (k n ad pt : bytes) : bytes := n ++ xaead_enc P k n ad pt.

(** cipher-traits/src/primitives/aead.rs:126-147 [decrypt_with_nonce_in_ctxt]. *)
Definition xdec (P : prims) (k ad ct : bytes) : option bytes :=
  xaead_dec P k (firstn 24 ct) ad (skipn 24 ct).

Lemma xdec_xenc P k n ad pt :
  correct P -> length n = 24 -> xdec P k ad (xenc P k n ad pt) = Some pt.
Proof.
  intros C L. unfold xdec, xenc.
  rewrite firstn_app, skipn_app, L, Nat.sub_diag.
  rewrite firstn_all2, skipn_all2 by lia. simpl. rewrite app_nil_r.
  now apply xaead_correct.
Qed.

Lemma xenc_len P k n ad pt :
  length n = 24 -> length (xenc P k n ad pt) = length pt + 40.
Proof. intros L. unfold xenc. rewrite app_length, xaead_enc_len. lia. Qed.

(** * A concrete instance, for examples only.

    It satisfies all laws and is completely insecure: a shift register as hash, an AEAD
    that appends a tag, KEMs whose shared key is a hash of public data. *)
Module Toy.
  (* xor, rotate, flip some bits *)
  (** No code in /repo: this and the following definitions are an example of the interface above. *)
  Definition mixb (x y : byte) : byte :=
    let '(a0, (a1, (a2, (a3, (a4, (a5, (a6, a7))))))) := Byte.to_bits x in
    let '(b0, (b1, (b2, (b3, (b4, (b5, (b6, b7))))))) := Byte.to_bits y in
    Byte.of_bits (xorb a7 b7, (negb (xorb a0 b0), (xorb a1 b1, (negb (xorb a2 b2),
      (negb (xorb a3 b3), (xorb a4 b4, (xorb a5 b5, negb (xorb a6 b6)))))))).
  (* the state is a queue of bytes *)
  Fixpoint absorb (st d : bytes) : bytes :=
    match d with
    | [] => st
    | b :: d' =>
        match st with
        | [] => []
        | h :: st' => absorb (st' ++ [mixb h b]) d'
        end
    end.
  Definition start (a : halg) : bytes :=
    match a with
    | Shake => [x13; x5a; xc7; x02; x9e; x71; xe4]
    | Blake => [x31; xa5; x7c; x20; x0d; x8b; x4f]
    end.
  Definition khash (a : halg) (k d : bytes) : bytes :=
    let st := absorb (absorb (absorb (start a) k) [x5e]) d in
    firstn 32 (st ++ absorb st (start a) ++ rev st ++ start a ++ zeros 32).
  Definition tag (k n ad pt : bytes) : bytes :=
    firstn 16 (khash Shake k (le_enc 8 (N.of_nat (length n)) ++ n
                              ++ le_enc 8 (N.of_nat (length ad)) ++ ad ++ pt)).
  Definition enc (k n ad pt : bytes) : bytes := pt ++ tag k n ad pt.
  Definition dec (k n ad ct : bytes) : option bytes :=
    if Nat.ltb (length ct) 16 then None else
    let pt := firstn (length ct - 16) ct in
    if bytes_eqb (skipn (length ct - 16) ct) (tag k n ad pt) then Some pt else None.
  (* The public key is a hash of the secret key, repeated to the wanted length. *)
  Definition fit (n : nat) (l : bytes) : bytes := firstn n (l ++ zeros n).
  Definition skem_pk (sk : bytes) : bytes := khash Shake [x70; x6b] sk.
  Definition kem_enc (n : nat) (r pk : bytes) : bytes * bytes :=
    let r := fit 32 r in
    (khash Shake pk r, fit n r).
  Definition skem_dec (sk ct : bytes) : bytes := khash Shake (skem_pk sk) (firstn 32 ct).
  Definition epk (sk : bytes) : bytes := fit 800 (khash Shake [x65; x70; x6b] sk).
  Definition ekem_gen (r : bytes) : bytes * bytes := (r, epk r).
  Definition ekem_dec (sk ct : bytes) : bytes := khash Shake (epk sk) (firstn 32 ct).

  Lemma fit_len n l : length (fit n l) = n.
  Proof. unfold fit. rewrite firstn_length, app_length, zeros_length. lia. Qed.
  Lemma khash_len a k d : length (khash a k d) = 32.
  Proof.
    unfold khash. rewrite firstn_length, !app_length, zeros_length. lia.
  Qed.
  Lemma tag_len k n ad pt : length (tag k n ad pt) = 16.
  Proof. unfold tag. rewrite firstn_length, khash_len. reflexivity. Qed.
  Lemma enc_len k n ad pt : length (enc k n ad pt) = length pt + 16.
  Proof. unfold enc. now rewrite app_length, tag_len. Qed.
  Lemma dec_len k n ad ct pt : dec k n ad ct = Some pt -> length ct = length pt + 16.
  Proof.
    unfold dec. destruct (Nat.ltb_spec (length ct) 16) as [L|L]; [discriminate|].
    destruct (bytes_eqb _ _); [|discriminate].
    intros [= <-]. rewrite firstn_length. lia.
  Qed.
  Lemma dec_enc k n ad pt : dec k n ad (enc k n ad pt) = Some pt.
  Proof.
    unfold dec. rewrite enc_len.
    destruct (Nat.ltb_spec (length pt + 16) 16) as [L|L]; [lia|].
    replace (length pt + 16 - 16) with (length pt) by lia.
    unfold enc. rewrite firstn_app, skipn_app, Nat.sub_diag.
    rewrite firstn_all, skipn_all. cbn [firstn skipn app]. rewrite app_nil_r.
    now rewrite bytes_eqb_refl.
  Qed.
  Lemma kem_ct_len n r pk : length (snd (kem_enc n r pk)) = n.
  Proof. apply fit_len. Qed.
  Lemma firstn_fit n r : 32 <= n -> length r = 32 -> firstn 32 (fit n r) = r.
  Proof.
    intros N L. unfold fit. rewrite firstn_firstn, Nat.min_l by lia.
    rewrite firstn_app, L. rewrite firstn_all2 by lia. simpl. apply app_nil_r.
  Qed.

  Definition prims : prims := {|
    Prims.khash := khash;
    Prims.skem_pk := skem_pk;
    Prims.skem_enc := kem_enc 156;
    Prims.skem_dec := skem_dec;
    Prims.ekem_gen := ekem_gen;
    Prims.ekem_enc := kem_enc 768;
    Prims.ekem_dec := ekem_dec;
    Prims.aead_enc := enc;
    Prims.aead_dec := dec;
    Prims.xaead_enc := enc;
    Prims.xaead_dec := dec;
    Prims.khash_len := khash_len;
    Prims.skem_ct_len := kem_ct_len 156;
    Prims.ekem_pk_len := fun r => fit_len 800 _;
    Prims.ekem_ct_len := kem_ct_len 768;
    Prims.aead_enc_len := enc_len;
    Prims.aead_dec_len := dec_len;
    Prims.xaead_enc_len := enc_len;
    Prims.xaead_dec_len := dec_len
  |}.

  Lemma correct : correct prims.
  Proof.
    split.
    - intros r sk. cbn [Prims.skem_dec Prims.skem_enc Prims.skem_pk prims].
      unfold skem_dec, kem_enc. cbn [fst snd].
      rewrite firstn_fit; [reflexivity|lia|apply fit_len].
    - intros r r'. cbn [Prims.ekem_dec Prims.ekem_enc Prims.ekem_gen prims].
      unfold ekem_dec, kem_enc, ekem_gen. cbn [fst snd].
      rewrite firstn_fit; [reflexivity|lia|apply fit_len].
    - exact dec_enc.
    - exact dec_enc.
  Qed.
End Toy.
