(** Properties of the ciphers and hashes as the protocol uses them: C78, C79. *)
From Verif Require Import Base ConstTime Prims Ciphers HashDomains Wire Server Protocol Wp Inv Rules Calls PollRules System Trans Spec Transcript PHandshake PAgree Demo.

(** * C78: encryption over the caller's buffers *)

Section Buffers.
Variables (b : backend) (v : bool).

Lemma split16 (c : bytes) : 16 <= length c -> exists x y, c = x ++ y /\ length y = 16 /\
  firstn (length c - TAG_LEN) c = x /\ skipn (length c - TAG_LEN) c = y /\ length x = length c - 16.
Proof.
  intros L. exists (firstn (length c - TAG_LEN) c), (skipn (length c - TAG_LEN) c). rewrite firstn_skipn, skipn_length, firstn_length. unfold TAG_LEN.
  repeat split; lia.
Qed.
Lemma encrypt_eq buf key nonce ad p : length buf = length p + 16 ->
  encrypt b v buf key nonce ad p =
  if fits b (length p) then (sealed b v key nonce ad p, Ok tt) else (p ++ skipn (length p) buf, Err InternalError).
Proof.
  intros L. unfold encrypt. destruct (Nat.ltb_spec (length buf) TAG_LEN) as [X|_]; [unfold TAG_LEN in X; lia|].
  destruct (Nat.ltb_spec (length buf - TAG_LEN) (length p)) as [X|_]; [unfold TAG_LEN in X; lia|]. cbn [orb].
  destruct (split16 buf) as (x & y & E & Ly & F & S & Lx); [lia|]. rewrite F, S. unfold copy_slice at 1.
  rewrite (proj2 (Nat.eqb_eq (length p) (length x))) by lia. destruct (fits b (length p)).
  - unfold sealed, copy_slice. rewrite tag_len, Ly. reflexivity.
  - f_equal. f_equal. rewrite E, skipn_app, (skipn_all2 x), (proj2 (Nat.sub_0_le (length p) (length x))) by lia. reflexivity.
Qed.
Lemma decrypt_eq buf key nonce ad c : length c = length buf + 16 ->
  decrypt b v buf key nonce ad c =
  match opened b v key nonce ad c with
  | Some p => if fits b (length buf) then (p, Ok tt) else (firstn (length buf) c, Err DecryptError)
  | None => (firstn (length buf) c, Err DecryptError)
  end.
Proof.
  intros L. unfold decrypt, opened. destruct (Nat.ltb_spec (length c) TAG_LEN) as [X|_]; [unfold TAG_LEN in X; lia|].
  destruct (Nat.ltb_spec (length c - TAG_LEN) (length buf)) as [X|_]; [unfold TAG_LEN in X; lia|]. cbn [orb].
  rewrite (proj2 (Nat.leb_le TAG_LEN (length c))) by (unfold TAG_LEN; lia). cbn [andb].
  destruct (split16 c) as (x & y & E & Ly & F & S & Lx); [lia|]. rewrite F, S. unfold copy_slice.
  assert (Lb : length x = length buf) by lia. rewrite (proj2 (Nat.eqb_eq _ _) Lb). rewrite Lb.
  assert (Fb : firstn (length buf) c = x).
  { rewrite E, firstn_app, (firstn_all2 x), (proj2 (Nat.sub_0_le (length buf) (length x))) by lia. apply app_nil_r. }
  rewrite Fb. destruct (bytes_eqb y _), (fits b (length buf)); reflexivity.
Qed.
Lemma opened_sealed key nonce ad p : opened b v key nonce ad (sealed b v key nonce ad p) = Some p.
Proof.
  unfold opened. rewrite sealed_len. unfold sealed. set (c := xor_loop _ p).
  assert (Lc : length c = length p) by (apply xor_loop_length, keystream_len).
  replace (length p + 16 - TAG_LEN) with (length c) by (unfold TAG_LEN; lia).
  rewrite firstn_app, skipn_app, Nat.sub_diag, firstn_all, skipn_all. cbn [firstn skipn List.app]. rewrite app_nil_r.
  rewrite (proj2 (Nat.leb_le TAG_LEN _)) by (unfold TAG_LEN; lia).
  rewrite (proj2 (bytes_eqb_eq _ _) eq_refl). cbn [andb]. rewrite Lc. f_equal. apply xor_loop_involutive, keystream_len.
Qed.
Lemma opened_only key nonce ad c p : opened b v key nonce ad c = Some p -> c = sealed b v key nonce ad p.
Proof.
  unfold opened. destruct (Nat.leb_spec TAG_LEN (length c)) as [L|L]; [|discriminate]. cbn [andb]. destruct (split16 c L) as (x & y & E & Ly & F & S & Lx).
  rewrite F, S. destruct (bytes_eqb y (tag b v key nonce ad x)) eqn:B; [|discriminate]. apply bytes_eqb_eq in B.
  intros H. assert (xor_loop (keystream b v key nonce (length x)) x = p) by congruence. subst p. unfold sealed.
  rewrite xor_loop_length by apply keystream_len. rewrite xor_loop_involutive by apply keystream_len. congruence.
Qed.
End Buffers.

(** C78: what is encrypted can be decrypted; both buffers are overwritten completely *)
Theorem C78_roundtrip : forall b v buf out key nonce ad plain,
  length buf = length plain + 16 -> length out = length plain -> fits b (length plain) = true ->
  exists c, encrypt b v buf key nonce ad plain = (c, Ok tt) /\ length c = length buf /\ decrypt b v out key nonce ad c = (plain, Ok tt).
Proof.
  intros b v buf out key nonce ad p L L' F. rewrite encrypt_eq by assumption. rewrite F. exists (sealed b v key nonce ad p).
  split; [reflexivity|]. rewrite sealed_len. split; [lia|]. rewrite decrypt_eq by (rewrite sealed_len; lia).
  rewrite opened_sealed, L', F. reflexivity.
Qed.
Print Assumptions C78_roundtrip.

(** C78: only that is decrypted: whatever decrypts to some plaintext is exactly what encrypting this plaintext with the same key,
    nonce and additional data gives *)
Theorem C78_only_encrypted : forall b v out key nonce ad c plain,
  decrypt b v out key nonce ad c = (plain, Ok tt) ->
  length plain = length out /\ forall buf, length buf = length c -> encrypt b v buf key nonce ad plain = (c, Ok tt).
Proof.
  intros b v out key nonce ad c p H.
  assert (L : length c = length out + 16).
  { unfold decrypt in H. destruct (Nat.ltb_spec (length c) TAG_LEN) as [X|X]; [discriminate H|].
    destruct (Nat.ltb_spec (length c - TAG_LEN) (length out)) as [Y|Y]; [discriminate H|]. cbn [orb] in H. unfold copy_slice in H.
    rewrite firstn_length in H. destruct (Nat.eqb_spec (Nat.min (length c - TAG_LEN) (length c)) (length out)) as [E|E]; [|discriminate H].
    unfold TAG_LEN in *. lia. }
  rewrite decrypt_eq in H by assumption. destruct (opened b v key nonce ad c) as [p'|] eqn:O; [|discriminate H].
  destruct (fits b (length out)) eqn:F; [|discriminate H]. assert (p' = p) by congruence. subst p'. pose proof (opened_len _ _ _ _ _ _ _ O) as Lp.
  apply opened_only in O. split; [lia|]. intros buf Lb. rewrite encrypt_eq by lia.
  replace (length p) with (length out) by lia. rewrite F. congruence.
Qed.
Print Assumptions C78_only_encrypted.

(** C78: if decryption fails, the buffer for the plaintext has nothing that was not in the ciphertext, or what was there before *)
Theorem C78_nothing_decrypted : forall b v out key nonce ad c out' e,
  decrypt b v out key nonce ad c = (out', Err e) -> out' = out \/ exists mac, c = out' ++ mac /\ length mac = 16.
Proof.
  intros b v out key nonce ad c out' e H. unfold decrypt in H. destruct (Nat.ltb_spec (length c) TAG_LEN) as [X|X]; [cbn [orb] in H; left; congruence|].
  destruct (Nat.ltb_spec (length c - TAG_LEN) (length out)) as [Y|Y]; [cbn [orb] in H; left; congruence|]. cbn [orb] in H.
  destruct (split16 c X) as (x & y & E & Ly & F & S & Lx). rewrite F, S in H. unfold copy_slice in H.
  destruct (Nat.eqb (length x) (length out)); [|discriminate H]. cbv iota in H.
  destruct (fits b (length x) && bytes_eqb y (tag b v key nonce ad x)); [discriminate H|]. right. exists y. split; [|assumption]. assert (out' = x) by congruence. subst out'. exact E.
Qed.
Print Assumptions C78_nothing_decrypted.

(** C78: buffers that are too small are refused, are left as they are and never make it panic *)
Theorem C78_too_small_partial : forall b v buf key nonce ad x,
  (snd (encrypt b v buf key nonce ad x) = Err InvalidLengths <-> length buf < length x + 16) /\
  (snd (decrypt b v buf key nonce ad x) = Err InvalidLengths <-> length x < length buf + 16) /\
  (length buf < length x + 16 -> fst (encrypt b v buf key nonce ad x) = buf) /\
  (length x < length buf + 16 -> fst (decrypt b v buf key nonce ad x) = buf) /\
  (length buf <= length x + 16 -> snd (encrypt b v buf key nonce ad x) <> Panic) /\
  (length x <= length buf + 16 -> snd (decrypt b v buf key nonce ad x) <> Panic).
Proof.
  intros b v buf key nonce ad x.
  assert (E1 : length buf < length x + 16 -> encrypt b v buf key nonce ad x = (buf, Err InvalidLengths)).
  { intros L. unfold encrypt. destruct (Nat.ltb_spec (length buf) TAG_LEN) as [X|X]; [reflexivity|].
    destruct (Nat.ltb_spec (length buf - TAG_LEN) (length x)) as [Y|Y]; [reflexivity|]. unfold TAG_LEN in *. lia. }
  assert (E2 : length x < length buf + 16 -> decrypt b v buf key nonce ad x = (buf, Err InvalidLengths)).
  { intros L. unfold decrypt. destruct (Nat.ltb_spec (length x) TAG_LEN) as [X|X]; [reflexivity|].
    destruct (Nat.ltb_spec (length x - TAG_LEN) (length buf)) as [Y|Y]; [reflexivity|]. unfold TAG_LEN in *. lia. }
  assert (E3 : length buf = length x + 16 -> snd (encrypt b v buf key nonce ad x) <> Panic /\ snd (encrypt b v buf key nonce ad x) <> Err InvalidLengths).
  { intros L. rewrite encrypt_eq by assumption. destruct (fits b (length x)); split; discriminate. }
  assert (E4 : length x = length buf + 16 -> snd (decrypt b v buf key nonce ad x) <> Panic /\ snd (decrypt b v buf key nonce ad x) <> Err InvalidLengths).
  { intros L. rewrite decrypt_eq by assumption. destruct (opened b v key nonce ad x), (fits b (length buf)); split; discriminate. }
  split; [split|split; [split|split; [|split; [|split]]]].
  - intros H. destruct (Nat.lt_trichotomy (length buf) (length x + 16)) as [L|[L|L]]; [assumption|destruct (E3 L); contradiction|].
    unfold encrypt in H. destruct (Nat.ltb_spec (length buf) TAG_LEN) as [X|X]; [unfold TAG_LEN in *; lia|].
    destruct (Nat.ltb_spec (length buf - TAG_LEN) (length x)) as [Y|Y]; [unfold TAG_LEN in *; lia|]. cbn [orb] in H. unfold copy_slice in H at 1.
    rewrite firstn_length in H. destruct (Nat.eqb_spec (length x) (Nat.min (length buf - TAG_LEN) (length buf))); [unfold TAG_LEN in *; lia|discriminate H].
  - intros L. now rewrite E1.
  - intros H. destruct (Nat.lt_trichotomy (length x) (length buf + 16)) as [L|[L|L]]; [assumption|destruct (E4 L); contradiction|].
    unfold decrypt in H. destruct (Nat.ltb_spec (length x) TAG_LEN) as [X|X]; [unfold TAG_LEN in *; lia|].
    destruct (Nat.ltb_spec (length x - TAG_LEN) (length buf)) as [Y|Y]; [unfold TAG_LEN in *; lia|]. cbn [orb] in H. unfold copy_slice in H at 1.
    rewrite firstn_length in H. destruct (Nat.eqb_spec (Nat.min (length x - TAG_LEN) (length x)) (length buf)); [unfold TAG_LEN in *; lia|discriminate H].
  - intros L. now rewrite E2.
  - intros L. now rewrite E1.
  - intros L. now rewrite E2.
  - intros L. destruct (Nat.eq_dec (length buf) (length x + 16)) as [E|E]; [exact (proj1 (E3 E))|]. rewrite E1 by lia. discriminate.
  - intros L. destruct (Nat.eq_dec (length x) (length buf + 16)) as [E|E]; [exact (proj1 (E4 E))|]. rewrite E2 by lia. discriminate.
Qed.
Print Assumptions C78_too_small_partial.

(** C78 fails for buffers that are too large: instead of the error for wrong lengths there is a panic *)
Theorem C78_too_large_refuted : forall b v buf key nonce ad x,
  (length x + 16 < length buf -> snd (encrypt b v buf key nonce ad x) = Panic) /\
  (length buf + 16 < length x -> snd (decrypt b v buf key nonce ad x) = Panic).
Proof.
  intros b v buf key nonce ad x. split; intros L.
  - unfold encrypt. destruct (Nat.ltb_spec (length buf) TAG_LEN) as [X|X]; [unfold TAG_LEN in *; lia|].
    destruct (Nat.ltb_spec (length buf - TAG_LEN) (length x)) as [Y|Y]; [unfold TAG_LEN in *; lia|]. cbn [orb]. unfold copy_slice at 1.
    rewrite firstn_length. destruct (Nat.eqb_spec (length x) (Nat.min (length buf - TAG_LEN) (length buf))); [unfold TAG_LEN in *; lia|reflexivity].
  - unfold decrypt. destruct (Nat.ltb_spec (length x) TAG_LEN) as [X|X]; [unfold TAG_LEN in *; lia|].
    destruct (Nat.ltb_spec (length x - TAG_LEN) (length buf)) as [Y|Y]; [unfold TAG_LEN in *; lia|]. cbn [orb]. unfold copy_slice at 1.
    rewrite firstn_length. destruct (Nat.eqb_spec (Nat.min (length x - TAG_LEN) (length x)) (length buf)); [unfold TAG_LEN in *; lia|reflexivity].
Qed.
Print Assumptions C78_too_large_refuted.

(** * With the nonce in front *)

Lemma encrypt_nonce_eq b v buf key nonce ad p : length nonce = NONCE_LEN v -> length buf = length p + NONCE_LEN v + 16 ->
  encrypt_with_nonce b v buf key nonce ad p =
  (nonce ++ fst (encrypt b v (skipn (NONCE_LEN v) buf) key nonce ad p), snd (encrypt b v (skipn (NONCE_LEN v) buf) key nonce ad p)).
Proof.
  intros Ln L. unfold encrypt_with_nonce. destruct (Nat.ltb_spec (length buf) (NONCE_LEN v + TAG_LEN)) as [X|_]; [unfold TAG_LEN in X; lia|].
  destruct (Nat.ltb_spec (length buf - TAG_LEN - NONCE_LEN v) (length p)) as [X|_]; [unfold TAG_LEN in X; lia|]. cbn [orb].
  unfold copy_slice. rewrite firstn_length. rewrite (proj2 (Nat.eqb_eq _ _)) by lia. destruct (encrypt _ _ _ _ _ _ _). reflexivity.
Qed.

(** C78: the same with the nonce in front of the ciphertext, where decryption finds it *)
Theorem C78_nonce_roundtrip : forall b (v : bool) buf out key nonce ad plain,
  length nonce = (if v then 24 else 12) -> length buf = length plain + length nonce + 16 -> length out = length plain -> fits b (length plain) = true ->
  exists c, encrypt_with_nonce b v buf key nonce ad plain = (nonce ++ c, Ok tt) /\ length (nonce ++ c) = length buf /\
    decrypt_with_nonce b v out key ad (nonce ++ c) = (plain, Ok tt).
Proof.
  intros b v buf out key nonce ad p Ln L L' F. change (if v then 24 else 12) with (NONCE_LEN v) in Ln. rewrite encrypt_nonce_eq by lia.
  assert (Ls : length (skipn (NONCE_LEN v) buf) = length p + 16) by (rewrite skipn_length; lia).
  destruct (C78_roundtrip b v (skipn (NONCE_LEN v) buf) out key nonce ad p Ls L' F) as (c & E & Lc & D). exists c. rewrite E. cbn [fst snd].
  split; [reflexivity|]. rewrite app_length. split; [lia|]. unfold decrypt_with_nonce. rewrite app_length.
  destruct (Nat.ltb_spec (length nonce + length c) (NONCE_LEN v + TAG_LEN)) as [X|_]; [unfold TAG_LEN in X; lia|].
  destruct (Nat.ltb_spec (length nonce + length c - TAG_LEN - NONCE_LEN v) (length out)) as [X|_]; [unfold TAG_LEN in X; lia|]. cbn [orb].
  rewrite <- Ln, firstn_app, skipn_app, Nat.sub_diag, firstn_all, skipn_all. cbn [firstn skipn List.app]. rewrite app_nil_r. exact D.
Qed.
Print Assumptions C78_nonce_roundtrip.

Theorem C78_nonce_only_encrypted : forall b (v : bool) out key ad c plain,
  decrypt_with_nonce b v out key ad c = (plain, Ok tt) ->
  exists nonce : bytes, length nonce = (if v then 24 else 12) /\ firstn (length nonce) c = nonce /\
    forall buf, length buf = length c -> encrypt_with_nonce b v buf key nonce ad plain = (c, Ok tt).
Proof.
  intros b v out key ad c p H. unfold decrypt_with_nonce in H.
  destruct (Nat.ltb_spec (length c) (NONCE_LEN v + TAG_LEN)) as [X|X]; [discriminate H|].
  destruct (Nat.ltb_spec (length c - TAG_LEN - NONCE_LEN v) (length out)) as [Y|Y]; [discriminate H|]. cbn [orb] in H.
  pose proof (C78_only_encrypted _ _ _ _ _ _ _ _ H) as [Lp E]. exists (firstn (NONCE_LEN v) c).
  assert (Ln : length (firstn (NONCE_LEN v) c) = NONCE_LEN v) by (rewrite firstn_length; lia).
  split; [exact Ln|]. split; [now rewrite Ln|]. intros buf Lb.
  assert (Lc : length (skipn (NONCE_LEN v) c) = length p + 16).
  { specialize (E (skipn (NONCE_LEN v) c) eq_refl). destruct (C78_too_small_partial b v (skipn (NONCE_LEN v) c) key (firstn (NONCE_LEN v) c) ad p) as ((_ & S) & _).
    destruct (C78_too_large_refuted b v (skipn (NONCE_LEN v) c) key (firstn (NONCE_LEN v) c) ad p) as [T _]. rewrite E in S, T. cbn [snd] in S, T.
    destruct (Nat.lt_trichotomy (length (skipn (NONCE_LEN v) c)) (length p + 16)) as [K|[K|K]]; [discriminate (S K)|exact K|discriminate (T K)]. }
  rewrite skipn_length in Lc. unfold TAG_LEN in *. rewrite encrypt_nonce_eq by lia.
  rewrite E by (rewrite !skipn_length; lia). cbn [fst snd]. now rewrite firstn_skipn.
Qed.
Print Assumptions C78_nonce_only_encrypted.

(** C78: buffers that are too small for nonce, ciphertext and tag are refused, are left as they are, and none makes it panic; and also
    here a failed decryption shows nothing but what was in the ciphertext *)
Theorem C78_nonce_too_small_partial : forall b (v : bool) buf key nonce ad x,
  length nonce = (if v then 24 else 12) ->
  (length buf < length nonce + length x + 16 -> encrypt_with_nonce b v buf key nonce ad x = (buf, Err InvalidLengths)) /\
  (length x < length nonce + length buf + 16 -> decrypt_with_nonce b v buf key ad x = (buf, Err InvalidLengths)) /\
  (length buf <= length nonce + length x + 16 -> snd (encrypt_with_nonce b v buf key nonce ad x) <> Panic) /\
  (length x <= length nonce + length buf + 16 -> snd (decrypt_with_nonce b v buf key ad x) <> Panic) /\
  (forall out e, decrypt_with_nonce b v buf key ad x = (out, Err e) -> out = buf \/ exists pre mac, x = pre ++ out ++ mac /\ length mac = 16).
Proof.
  intros b v buf key nonce ad x Ln. change (if v then 24 else 12) with (NONCE_LEN v) in Ln.
  assert (E1 : length buf < length nonce + length x + 16 -> encrypt_with_nonce b v buf key nonce ad x = (buf, Err InvalidLengths)).
  { intros L. unfold encrypt_with_nonce. destruct (Nat.ltb_spec (length buf) (NONCE_LEN v + TAG_LEN)) as [X|X]; [reflexivity|].
    destruct (Nat.ltb_spec (length buf - TAG_LEN - NONCE_LEN v) (length x)) as [Y|Y]; [reflexivity|]. unfold TAG_LEN in *. lia. }
  assert (E2 : length x < length nonce + length buf + 16 -> decrypt_with_nonce b v buf key ad x = (buf, Err InvalidLengths)).
  { intros L. unfold decrypt_with_nonce. destruct (Nat.ltb_spec (length x) (NONCE_LEN v + TAG_LEN)) as [X|X]; [reflexivity|].
    destruct (Nat.ltb_spec (length x - TAG_LEN - NONCE_LEN v) (length buf)) as [Y|Y]; [reflexivity|]. unfold TAG_LEN in *. lia. }
  split; [exact E1|]. split; [exact E2|]. split; [|split].
  - intros L. destruct (Nat.eq_dec (length buf) (length nonce + length x + 16)) as [E|E]; [|rewrite E1 by lia; discriminate].
    rewrite encrypt_nonce_eq by lia. cbn [snd]. apply C78_too_small_partial. rewrite skipn_length. lia.
  - intros L. destruct (Nat.eq_dec (length x) (length nonce + length buf + 16)) as [E|E]; [|rewrite E2 by lia; discriminate].
    unfold decrypt_with_nonce. destruct (_ || _); [discriminate|]. apply C78_too_small_partial. rewrite skipn_length. lia.
  - intros out e H. unfold decrypt_with_nonce in H. destruct (_ || _); [left; congruence|]. apply C78_nothing_decrypted in H. destruct H as [H|(mac & H & Lm)]; [auto|].
    right. exists (firstn (NONCE_LEN v) x), mac. rewrite <- H, firstn_skipn. auto.
Qed.
Print Assumptions C78_nonce_too_small_partial.

(** * C79: the keyed hashes *)

(** One evaluation of a hash function of the libraries *)
Inductive lib_call := LShake (data : bytes) | LBlake (key data : bytes).
Definition lib_value (b : backend) (c : lib_call) : bytes := match c with LShake d => shake b d 32 | LBlake k d => blake b k d end.
Definition xor_with (x : byte) (k : bytes) : bytes := map (fun y => n2b (N.lxor (b2n y) (b2n x))) k.
(** The evaluations behind one keyed hash, the last one gives the result *)
Definition lib_calls (b : backend) (c : hash_call) : list lib_call :=
  match c with
  | (Shake, k, d) => [LShake (k ++ d)]
  | (Blake, k, d) => [LBlake (xor_with x36 k) d; LBlake (xor_with x5c k) (blake b (xor_with x36 k) d)]
  end.

Lemma xor_repeat x k n : length k = n -> xor_loop (repeat x n) k = xor_with x k.
Proof. revert n. induction k as [|y k IH]; intros [|n] L; try discriminate L; [reflexivity|]. cbn [repeat xor_loop xor_with map]. f_equal. apply IH. cbn in L. lia. Qed.
Lemma xor_with_inj x k k' : xor_with x k = xor_with x k' -> k = k'.
Proof.
  intros E. assert (Ll : length k = length k') by (apply (f_equal (@length byte)) in E; unfold xor_with in E; now rewrite !map_length in E).
  rewrite <- (xor_repeat x k (length k) eq_refl), <- (xor_repeat x k' (length k)) in E by congruence.
  apply (f_equal (xor_loop (repeat x (length k)))) in E. rewrite !xor_loop_involutive in E by (rewrite repeat_length; congruence). exact E.
Qed.
Lemma keyed_hash_last b a k d : length k = 32 -> exists c, In c (lib_calls b (a, k, d)) /\ lib_value b c = keyed_hash b a k d.
Proof.
  intros L. destruct a; unfold lib_calls, keyed_hash, shake_keyed, hmac_blake, IPAD, OPAD.
  - exists (LShake (k ++ d)). split; [left; reflexivity|reflexivity].
  - rewrite !xor_repeat by assumption. eexists. split; [right; left; reflexivity|reflexivity].
Qed.

Lemma app_inj_len (x y u w : bytes) : length x = length u -> x ++ y = u ++ w -> x = u /\ y = w.
Proof. revert u. induction x as [|a x IH]; intros [|c u] L E; try discriminate L; [auto|]. cbn in L, E. injection E as -> E. destruct (IH u) as [-> ->]; auto. Qed.

(** Two evaluations of lists with different inputs and the same result *)
Definition lib_collide (b : backend) (l l' : list lib_call) : Prop :=
  exists c c', In c l /\ In c' l' /\ c <> c' /\ lib_value b c = lib_value b c'.

(** C79: whoever finds two different inputs of the keyed hash (also of the two different ones) with the same result has found two
    different inputs of the hashes of the libraries with the same result *)
Theorem C79_collision : forall b a k d a' k' d',
  length k = 32 -> length k' = 32 -> (a, k, d) <> (a', k', d') -> keyed_hash b a k d = keyed_hash b a' k' d' ->
  lib_collide b (lib_calls b (a, k, d)) (lib_calls b (a', k', d')).
Proof.
  intros b a k d a' k' d' L L' N E. unfold lib_collide. unfold keyed_hash, shake_keyed, hmac_blake, IPAD, OPAD in E.
  destruct a, a'; rewrite ?xor_repeat in E by assumption.
  - exists (LShake (k ++ d)), (LShake (k' ++ d')). split; [left; reflexivity|]. split; [left; reflexivity|]. split; [|exact E].
    intros X. assert (X' : k ++ d = k' ++ d') by congruence.
    apply app_inj_len in X'; [|lia]. destruct X'.
    congruence.
  - eexists (LShake (k ++ d)), _. split; [left; reflexivity|]. split; [right; left; reflexivity|]. split; [discriminate|exact E].
  - eexists _, (LShake (k' ++ d')). split; [right; left; reflexivity|]. split; [left; reflexivity|]. split; [discriminate|exact E].
  - destruct (call_dec (Blake, xor_with x5c k, blake b (xor_with x36 k) d) (Blake, xor_with x5c k', blake b (xor_with x36 k') d')) as [X|X].
    + assert (X1 : xor_with x5c k = xor_with x5c k') by congruence. assert (X2 : blake b (xor_with x36 k) d = blake b (xor_with x36 k') d') by congruence.
      apply xor_with_inj in X1. subst k'. exists (LBlake (xor_with x36 k) d), (LBlake (xor_with x36 k) d').
      split; [left; reflexivity|]. split; [left; reflexivity|]. split; [congruence|exact X2].
    + eexists _, _. split; [right; left; reflexivity|]. split; [right; left; reflexivity|]. split; [|exact E]. congruence.
Qed.
Print Assumptions C79_collision.

(** C79: the inputs of one evaluation are those of the keyed hash in the order key, data: the Shake version hashes the key followed by
    the data; the Blake version is HMAC with a pad of the length of the key and the keyed Blake2b as its hash *)
Theorem C79_shape : forall b k d, length k = 32 ->
  keyed_hash b Shake k d = shake b (k ++ d) 32 /\
  keyed_hash b Blake k d = blake b (xor_with x5c k) (blake b (xor_with x36 k) d).
Proof. intros b k d L. unfold keyed_hash, shake_keyed, hmac_blake, IPAD, OPAD. rewrite !xor_repeat by assumption. auto. Qed.
Print Assumptions C79_shape.

(** * The protocol over the libraries *)

(** What the library for key encapsulation must guarantee: both sides get the same secret *)
Definition kems_correct (K : prims) : Prop :=
  (forall r sk, skem_dec K sk (snd (skem_enc K r (skem_pk K sk))) = fst (skem_enc K r (skem_pk K sk))) /\
  (forall r r', ekem_dec K (fst (ekem_gen K r')) (snd (ekem_enc K r (snd (ekem_gen K r')))) = fst (ekem_enc K r (snd (ekem_gen K r')))).
(** C78: with these ciphers and hashes the primitives of the protocol are correct if key encapsulation is *)
Theorem C78_primitives_correct : forall b K, kems_correct K -> correct (prims_of b K).
Proof.
  intros b K [C1 C2]. constructor; intros; [apply C1|apply C2|apply opened_sealed|apply opened_sealed].
Qed.
Print Assumptions C78_primitives_correct.
(** C78: and they are what the code computes with its buffers *)
Theorem C78_primitives_used : forall b K (v : bool) buf key nonce ad x,
  let P := prims_of b K in
  let enc := if v then xaead_enc P else aead_enc P in
  let dec := if v then xaead_dec P else aead_dec P in
  (length buf = length x + 16 -> fits b (length x) = true -> encrypt b v buf key nonce ad x = (enc key nonce ad x, Ok tt)) /\
  (length x = length buf + 16 -> fits b (length buf) = true -> forall p, decrypt b v buf key nonce ad x = (p, Ok tt) <-> dec key nonce ad x = Some p).
Proof.
  intros b K v buf key nonce ad x P enc dec.
  assert (Ee : enc = sealed b v) by (destruct v; reflexivity). assert (Ed : dec = opened b v) by (destruct v; reflexivity). rewrite Ee, Ed. split.
  - intros L F. rewrite encrypt_eq, F by assumption. reflexivity.
  - intros L F p. rewrite decrypt_eq, F by assumption. destruct (opened b v key nonce ad x) as [p'|]; split; intros H; try discriminate; congruence.
Qed.
Print Assumptions C78_primitives_used.

Definition keys32 (l : list hash_call) : Prop := Forall (fun c => length (snd (fst c)) = 32) l.
Lemma chain_keys P a k l : length k = 32 -> keys32 (chain P a k l).
Proof. revert k. induction l as [|d l IH]; intros k L; cbn [chain]; constructor; [exact L|]. apply IH, khash_len. Qed.
Lemma mix1_len P a ck x : length (mix1 P a ck x) = 32.
Proof. unfold mix1. apply khash_len. Qed.
Lemma mixed_len P a ck l : length ck = 32 -> length (mixed P a ck l) = 32.
Proof. revert ck. induction l as [|x l IH]; intros ck L; [exact L|]. cbn [mixed fold_left]. apply IH, mix1_len. Qed.
Lemma mix_calls_keys P a l : forall ck, length ck = 32 -> keys32 (mix_calls P a ck l).
Proof.
  induction l as [|x l IH]; intros ck L; cbn [mix_calls]; [constructor|]. constructor; [exact L|]. constructor; [apply khash_len|]. apply IH, mix1_len.
Qed.
Lemma chain_start_len P a pk : length (chain_start P a pk) = 32.
Proof. unfold chain_start. apply khash_len. Qed.
Lemma view_calls_keys P v : keys32 (view_calls P v).
Proof.
  unfold view_calls, key_calls. apply Forall_app. split; [apply mix_calls_keys, chain_start_len|].
  apply Forall_app. split; [apply chain_keys, zeros_length|]. constructor; [|constructor]. cbn [fst snd]. unfold secret_of. apply mixed_len, chain_start_len.
Qed.

(** Two evaluations in the libraries with different inputs have the same result, or one has an all-zero result *)
Definition lib_broken (b : backend) (l l' : list lib_call) : Prop :=
  lib_collide b l l' \/ (exists c, In c l /\ lib_value b c = zeros 32) \/ (exists c, In c l' /\ lib_value b c = zeros 32).
Lemma zero_below b K l : keys32 l -> hits_zero (prims_of b K) l -> exists c, In c (flat_map (lib_calls b) l) /\ lib_value b c = zeros 32.
Proof.
  intros Kl ([[a k] d] & I & Z). unfold keys32 in Kl. rewrite Forall_forall in Kl. specialize (Kl _ I). cbn [fst snd] in Kl.
  destruct (keyed_hash_last b a k d Kl) as (c & Ic & Vc). exists c. split; [apply in_flat_map; eauto|]. rewrite Vc. exact Z.
Qed.

(** C79: two conversations that end in the same key although they do not match (see C75) break the hashes of the libraries, at inputs
    that follow from the two conversations *)
Theorem C79_conversations : forall b K v w,
  hash_broken (prims_of b K) v w ->
  lib_broken b (flat_map (lib_calls b) (view_calls (prims_of b K) v)) (flat_map (lib_calls b) (view_calls (prims_of b K) w)).
Proof.
  intros b K v w [C|[Z|Z]].
  - left. destruct C as ([[a k] d] & [[a' k'] d'] & I & I' & N & E).
    pose proof (view_calls_keys (prims_of b K) v) as Kv. pose proof (view_calls_keys (prims_of b K) w) as Kw. unfold keys32 in Kv, Kw. rewrite Forall_forall in Kv, Kw.
    destruct (C79_collision b a k d a' k' d' (Kv _ I) (Kw _ I') N E) as (c & c' & J & J' & M & F). exists c, c'.
    split; [apply in_flat_map; eauto|]. split; [apply in_flat_map; eauto|]. auto.
  - right. left. exact (zero_below b K _ (view_calls_keys _ v) Z).
  - right. right. exact (zero_below b K _ (view_calls_keys _ w) Z).
Qed.
Print Assumptions C79_conversations.

(** C79: what C75 says about handshakes with the same key, over the libraries: a server that started a handshake and one that answered
    one and that have the same key are each other's configured peers and received what the other sent, or there are two evaluations of
    Blake2b or SHAKE256 with different inputs and the same result (or an all-zero one) among those the two handshakes computed *)
Theorem C79_matching_conversations : forall b K A p xA c m1 m2 m3 A' B q xB d n1 n2 n3 B' k,
  let P := prims_of b K in
  kems_correct K ->
  initiator_run P A p c m1 m2 m3 A' -> nth_error (s_peers A) p = Some xA ->
  responder_run P B q d n1 n2 n3 B' -> nth_error (s_peers B) q = Some xB ->
  key_at P A' p k -> key_at P B' q k ->
  (p_spkt xA = s_spkm B /\ p_spkt xB = s_spkm A /\ p_psk xA = p_psk xB /\ p_alg xA = p_alg xB /\
   ds_labels (p_ds xA) = ds_labels (p_ds xB) /\
   same_hello m1 n1 /\ same_resp m2 n2 /\ same_conf m3 n3) \/
  lib_broken b (flat_map (lib_calls b) (view_calls P (initiator_view P A xA c m1 m2 m3)))
               (flat_map (lib_calls b) (view_calls P (responder_view P B xB d n1 n2 n3))).
Proof.
  intros b K A p xA c m1 m2 m3 A' B q xB d n1 n2 n3 B' k P C RA XA RB XB KA KB.
  destruct (C75_matching_conversations P A p xA c m1 m2 m3 A' B q xB d n1 n2 n3 B' k (C78_primitives_correct b K C) RA XA RB XB KA KB) as [G|G].
  - left. exact G.
  - right. apply C79_conversations. exact G.
Qed.
Print Assumptions C79_matching_conversations.

(** * C80: copying to a destination *)

(** The first bytes of the destination are the source, the others are as before *)
Definition written (src dst dst' : bytes) : Prop := exists old rest, dst = old ++ rest /\ length old = length src /\ dst' = src ++ rest.

(** C80: every operation writes all of the source to the front of the destination and changes nothing else, or (for the one that
    says so) as much as fits; it panics, or refuses without a change, if there is no room *)
Theorem C80_copy : forall src dst,
  (forall dst', copy_slice src dst = Some dst' <-> length src = length dst /\ dst' = src) /\
  (forall dst', copy_slice_least_src src dst = Some dst' <-> written src dst dst') /\
  (exists n dst', copy_slice_least src dst = Some dst' /\ written (firstn n src) dst dst' /\ (n = length src \/ n < length src /\ n = length dst)) /\
  (try_copy_slice src dst = (if Nat.eqb (length src) (length dst) then Some (src, true) else Some (dst, false))) /\
  (forall dst', try_copy_slice_least_src src dst = Some (dst', true) <-> written src dst dst') /\
  (length dst < length src <-> try_copy_slice_least_src src dst = Some (dst, false)).
Proof.
  intros src dst.
  assert (W : forall dst', written src dst dst' <-> length src <= length dst /\ dst' = src ++ skipn (length src) dst).
  { intros dst'. split.
    - intros (old & rest & -> & L & ->). rewrite app_length, <- L. split; [lia|]. rewrite skipn_app, skipn_all, Nat.sub_diag. reflexivity.
    - intros [L ->]. exists (firstn (length src) dst), (skipn (length src) dst). rewrite firstn_skipn, firstn_length. repeat split. lia. }
  assert (Ls : forall dst', copy_slice_least_src src dst = Some dst' <-> length src <= length dst /\ dst' = src ++ skipn (length src) dst).
  { intros dst'. unfold copy_slice_least_src. destruct (Nat.leb_spec (length src) (length dst)) as [L|L].
    - unfold copy_slice. rewrite firstn_length, Nat.min_l, Nat.eqb_refl by lia. split; [intros H; split; [lia|congruence]|intros [_ ->]; reflexivity].
    - split; [discriminate|intros [X _]; lia]. }
  split; [|split; [|split; [|split; [|split]]]].
  - intros dst'. unfold copy_slice. destruct (Nat.eqb_spec (length src) (length dst)) as [E|E]; split; intros H; try discriminate; try (destruct H; congruence); try (split; congruence).
  - intros dst'. rewrite Ls, W. reflexivity.
  - unfold copy_slice_least, copy_slice. set (n := Nat.min (length src) (length dst)). rewrite !firstn_length.
    rewrite (proj2 (Nat.eqb_eq _ _)) by lia. exists n. eexists. split; [reflexivity|]. split.
    + exists (firstn n dst), (skipn n dst). rewrite firstn_skipn, !firstn_length. repeat split. lia.
    + lia.
  - unfold try_copy_slice, copy_slice. destruct (Nat.eqb (length src) (length dst)); reflexivity.
  - intros dst'. rewrite W, <- Ls. unfold try_copy_slice_least_src. destruct (Nat.leb_spec (length src) (length dst)) as [L|L].
    + destruct (copy_slice_least_src src dst); split; congruence.
    + split; [congruence|]. intros H. apply Ls in H. lia.
  - unfold try_copy_slice_least_src. destruct (Nat.leb_spec (length src) (length dst)) as [L|L]; split; intros H; try reflexivity; try lia.
    destruct (copy_slice_least_src src dst); discriminate.
Qed.
Print Assumptions C80_copy.

(** * Cases *)

Module ToyCiphers.
Lemma fix_len (n : nat) (l : bytes) : length (firstn n (l ++ zeros n)) = n.
Proof. rewrite firstn_length, app_length, zeros_length. lia. Qed.
(** A library with the hash of the toy primitives, a constant key stream, and the hash as authenticator *)
Definition b : backend := {|
  blake := Toy.khash Blake;
  shake := fun d n => firstn n (Toy.khash Shake [] d ++ zeros n);
  keystream := fun v k n i => repeat (if v then x0f else xf0) i;
  tag := fun v k n ad c => Toy.tag k n ad c;
  fits := fun n => Nat.leb n 2000;
  blake_len := Toy.khash_len Blake;
  shake_len := fun d n => fix_len n _;
  keystream_len := fun v k n i => repeat_length _ i;
  tag_len := fun v k n ad c => Toy.tag_len k n ad c
|}.
(** One whose Blake2b has the same result for all inputs *)
Definition bad : backend := {|
  blake := fun k d => repeat x01 32; shake := shake b; keystream := keystream b; tag := tag b; fits := fits b;
  blake_len := fun k d => repeat_length _ 32; shake_len := shake_len b; keystream_len := keystream_len b; tag_len := tag_len b
|}.
Definition plain : bytes := [x41; x42; x43].
Definition c := Eval vm_compute in fst (encrypt b false (repeat xee 19) (repeat x01 32) (repeat x02 12) [x07] plain).
Definition n : bytes := repeat x02 24.
Definition cn := Eval vm_compute in fst (encrypt_with_nonce b true (repeat xee 43) (repeat x01 32) n [x07] plain).
End ToyCiphers.

Example C78_case :
  encrypt ToyCiphers.b false (repeat xee 19) (repeat x01 32) (repeat x02 12) [x07] ToyCiphers.plain = (ToyCiphers.c, Ok tt) /\
  decrypt ToyCiphers.b false (repeat xee 3) (repeat x01 32) (repeat x02 12) [x07] ToyCiphers.c = (ToyCiphers.plain, Ok tt) /\
  decrypt ToyCiphers.b false (repeat xee 3) (repeat x01 32) (repeat x02 12) [x08] ToyCiphers.c = ([xb1; xb2; xb3], Err DecryptError) /\
  decrypt ToyCiphers.b false (repeat xee 4) (repeat x01 32) (repeat x02 12) [x07] ToyCiphers.c = (repeat xee 4, Err InvalidLengths) /\
  snd (decrypt ToyCiphers.b false (repeat xee 2) (repeat x01 32) (repeat x02 12) [x07] ToyCiphers.c) = Panic /\
  encrypt_with_nonce ToyCiphers.b true (repeat xee 43) (repeat x01 32) ToyCiphers.n [x07] ToyCiphers.plain = (ToyCiphers.cn, Ok tt) /\
  decrypt_with_nonce ToyCiphers.b true (repeat xee 3) (repeat x01 32) [x07] ToyCiphers.cn = (ToyCiphers.plain, Ok tt) /\
  kems_correct Toy.prims.
Proof. repeat (split; [vm_compute; reflexivity|]). split; [apply (skem_correct _ Toy.correct)|apply (ekem_correct _ Toy.correct)]. Qed.

Example C79_collision_case :
  let k := repeat x11 32 in
  keyed_hash ToyCiphers.bad Blake k [x01] = keyed_hash ToyCiphers.bad Blake k [x02] /\
  lib_collide ToyCiphers.bad (lib_calls ToyCiphers.bad (Blake, k, [x01])) (lib_calls ToyCiphers.bad (Blake, k, [x02])).
Proof.
  cbv zeta. split; [vm_compute; reflexivity|]. apply C79_collision; [reflexivity|reflexivity| |vm_compute; reflexivity]. discriminate.
Qed.

(** The handshake of Demo.v over this library *)
Module LibDemo.
Definition P := prims_of ToyCiphers.b Toy.prims.
Definition rA1 := Eval vm_compute in exec P Demo.cA1 Demo.A0.
Definition rB1 := Eval vm_compute in exec P Demo.cB1 Demo.B0.
Definition A1 := Eval vm_compute in fst rA1.
Definition B1 := Eval vm_compute in fst rB1.
Definition rA2 := Eval vm_compute in exec P Demo.cA2 A1.
Definition A2 := Eval vm_compute in fst rA2.
Definition m1 := Eval vm_compute in Demo.sent (snd rA2).
Definition cB2 := Demo.mk (secs 2) xbb (OMsg m1 Demo.tx).
Definition rB2 := Eval vm_compute in exec P cB2 B1.
Definition B2 := Eval vm_compute in fst rB2.
Definition m2 := Eval vm_compute in Demo.sent (snd rB2).
Definition cA3 := Demo.mk (secs 3) xcc (OMsg m2 Demo.tx).
Definition rA3 := Eval vm_compute in exec P cA3 A2.
Definition A3 := Eval vm_compute in fst rA3.
Definition m3 := Eval vm_compute in Demo.sent (snd rA3).
Definition cB3 := Demo.mk (secs 4) xdd (OMsg m3 Demo.tx).
Definition rB3 := Eval vm_compute in exec P cB3 B2.
Definition B3 := Eval vm_compute in fst rB3.

Lemma reach s c r : initial s -> valid c s -> exec P c s = r -> reachable P (fst r).
Proof.
  intros I V E. exists s, [(c, snd r)]. split; [exact I|]. econstructor; [exact V| |constructor]. rewrite E. apply surjective_pairing.
Qed.
Lemma initiator : initiator_run P A1 0 Demo.cA2 m1 m2 m3 A3.
Proof.
  exists Demo.tx, A2, [], A2, cA3, Demo.tx.
  split. { exact (reach Demo.A0 Demo.cA1 rA1 Demo.initA (conj (Demo.wf_coin _) Logic.I) ltac:(vm_compute; reflexivity)). }
  split; [Demo.okv|]. split; [reflexivity|]. split; [vm_compute; reflexivity|]. split; [constructor|].
  split. { eapply still_pending_self; [reflexivity|reflexivity|vm_compute; reflexivity]. }
  split; [Demo.okv|]. split; [reflexivity|]. split; [reflexivity|]. vm_compute; reflexivity.
Qed.
Lemma responder : responder_run P B1 0 cB2 m1 m2 m3 B3.
Proof.
  exists B2, (snd rB2), [], B2, cB3, (snd rB3).
  split. { exact (reach Demo.B0 Demo.cB1 rB1 Demo.initB (conj (Demo.wf_coin _) Logic.I) ltac:(vm_compute; reflexivity)). }
  split; [Demo.okv|]. split; [reflexivity|]. split; [vm_compute; reflexivity|].
  split; [eexists; reflexivity|]. split; [reflexivity|]. split; [constructor|].
  split; [Demo.okv|]. split; [reflexivity|]. split; [reflexivity|]. split; [vm_compute; reflexivity|].
  split; [eexists; reflexivity|].
  split; [vm_compute; reflexivity|]. split; [vm_compute; reflexivity|]. split; [vm_compute; reflexivity|].
  split; [reflexivity|].
  assert (forall pt, ~ biscuit_opens P Blake (s_spkm B1)
    (named_key B2 (resp_biscuit m2)) (resp_sidi m2) (resp_sidr m2) (resp_biscuit m2) pt) as N.
  { intros pt H. vm_compute in H. discriminate. }
  intros [|] [|] pt pt' H H'; try reflexivity; exfalso; eapply N; eassumption.
Qed.
End LibDemo.
Example C79_case :
  initiator_run LibDemo.P LibDemo.A1 0 Demo.cA2 LibDemo.m1 LibDemo.m2 LibDemo.m3 LibDemo.A3 /\
  responder_run LibDemo.P LibDemo.B1 0 LibDemo.cB2 LibDemo.m1 LibDemo.m2 LibDemo.m3 LibDemo.B3 /\
  exists k, key_at LibDemo.P LibDemo.A3 0 k /\ key_at LibDemo.P LibDemo.B3 0 k.
Proof.
  split; [exact LibDemo.initiator|]. split; [exact LibDemo.responder|].
  eexists. split; [eapply osk_of; reflexivity|].
  intros c V Eo. erewrite (osk_of LibDemo.P LibDemo.B3 0); [|reflexivity|reflexivity|exact V|exact Eo].
  vm_compute. reflexivity.
Qed.

Example C80_case :
  copy_slice_least_src [x01; x02] [x0a; x0b; x0c] = Some [x01; x02; x0c] /\ copy_slice_least_src [x01; x02] [x0a] = None /\
  copy_slice_least [x01; x02] [x0a] = Some [x01] /\ try_copy_slice [x01; x02] [x0a] = Some ([x0a], false) /\
  try_copy_slice_least_src [x01] [x0a; x0b] = Some ([x01; x0b], true).
Proof. vm_compute. auto. Qed.
