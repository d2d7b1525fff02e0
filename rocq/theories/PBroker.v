(** C38, C39, C40, C67: the PSK broker. *)
From Verif Require Import Base Wire Lpe PLpe Broker.

(** * Specification *)

(** A request: type 1, three zero bytes, key, peer, and the interface name with its length in a field of 255 bytes. *)
Definition wire (c : bconfig) : bytes :=
  [x01; x00; x00; x00] ++ g_psk c ++ g_peer c ++ le_enc 1 (N.of_nat (length (g_iface c))) ++ g_iface c ++
  zeros (255 - length (g_iface c)).

(** The results in a response. *)
Definition reply_byte (r : psk_result) : byte :=
  match r with
  | None => x00 | Some InternalError => x01 | Some NoSuchInterface => x02 | Some NoSuchPeer => x03
  end.
(** A response: type 1, three zero bytes, the result. *)
Definition response (r : psk_result) : bytes := [x01; x00; x00; x00; reply_byte r].

(** Keys and peers have 32 bytes. *)
Definition typed (c : bconfig) : Prop := length (g_psk c) = 32 /\ length (g_peer c) = 32.

(** A request that the privileged broker accepts. *)
Definition valid (utf8 : bytes -> bool) (m : bytes) : Prop :=
  exists c rest, typed c /\ utf8 (g_iface c) = true /\ length (g_iface c) < 256 /\
    length m = 324 /\ firstn 1 m = [x01] /\
    skipn 4 m = g_psk c ++ g_peer c ++ le_enc 1 (N.of_nat (length (g_iface c))) ++ g_iface c ++ rest.

(** * Messages *)

Lemma splice_mid n (a b d r : bytes) : length a = n -> length b = length d ->
  splice n d (a ++ b ++ r) = a ++ d ++ r.
Proof.
  intros La Lb. unfold splice.
  rewrite firstn_app, firstn_all2 by lia. rewrite La, Nat.sub_diag, firstn_O, app_nil_r.
  rewrite (app_assoc a b r), (skipn_app _ (a ++ b)), (skipn_all2 (a ++ b)) by (rewrite app_length; lia).
  replace (n + length d - length (a ++ b)) with 0 by (rewrite app_length; lia). reflexivity.
Qed.
Lemma slice_mid n k (a b r : bytes) : length a = n -> length b = k -> slice n k (a ++ b ++ r) = b.
Proof.
  intros La Lb. unfold slice. rewrite skipn_app, skipn_all2 by lia. rewrite La, Nat.sub_diag. cbn [skipn List.app].
  rewrite firstn_app, firstn_all2 by lia. rewrite Lb, Nat.sub_diag, firstn_O, app_nil_r. reflexivity.
Qed.
Lemma zeros_app a b : zeros a ++ zeros b = zeros (a + b).
Proof. unfold zeros. symmetry. apply repeat_app. Qed.

Lemma wire_length c : typed c -> length (g_iface c) < 256 -> length (wire c) = 324.
Proof.
  intros (A & B) L. unfold wire. rewrite !app_length, le_enc_length, zeros_length, A, B. cbn [length]. lia.
Qed.

Lemma request_ok utf8 E c : typed c ->
  set_psk_request (E := E) utf8 c =
    if utf8 (g_iface c) then if Nat.ltb (length (g_iface c)) 256 then Ok (wire c) else Err SIface else Err SBroker.
Proof.
  intros (A & B). unfold set_psk_request. destruct (utf8 (g_iface c)); [|reflexivity].
  unfold set_iface_bin. destruct (Nat.ltb_spec (length (g_iface c)) 256) as [L|L]; [|reflexivity]. f_equal.
  assert (Z : zeros REQUEST_MSG_BUFFER_SIZE = [] ++ zeros 1 ++ zeros 3 ++ zeros 32 ++ zeros 32 ++ zeros 1 ++ zeros 255).
  { reflexivity. }
  rewrite Z. rewrite (splice_mid 0 [] (zeros 1) [SET_PSK]) by reflexivity.
  cbn [List.app]. change (SET_PSK :: zeros 3 ++ zeros 32 ++ zeros 32 ++ zeros 1 ++ zeros 255)
    with (([SET_PSK; x00; x00; x00] ++ zeros 32) ++ zeros 32 ++ zeros 1 ++ zeros 255).
  rewrite (splice_mid OFF_PEER) by (rewrite ?app_length, ?zeros_length, ?B; reflexivity).
  rewrite <- app_assoc. rewrite (splice_mid OFF_PSK) by (rewrite ?zeros_length, ?A; reflexivity).
  rewrite (app_assoc (g_psk c)), (app_assoc [SET_PSK; x00; x00; x00]).
  assert (L68 : length ([SET_PSK; x00; x00; x00] ++ g_psk c ++ g_peer c) = 68) by (rewrite !app_length, A, B; reflexivity).
  rewrite (splice_mid OFF_SIZE) by (rewrite ?L68, ?le_enc_length, ?zeros_length; reflexivity).
  rewrite (app_assoc _ (le_enc 1 _)).
  set (h := ([SET_PSK; x00; x00; x00] ++ g_psk c ++ g_peer c) ++ le_enc 1 (N.of_nat (length (g_iface c)))).
  assert (Lh : length h = 69) by (unfold h; rewrite app_length, L68, le_enc_length; reflexivity).
  rewrite <- (app_nil_r (zeros 255)) at 2. rewrite (splice_mid OFF_IFACE) by (rewrite ?Lh; reflexivity).
  rewrite app_nil_r. replace 255 with (length (g_iface c) + (255 - length (g_iface c))) at 1 by lia.
  rewrite <- zeros_app, (splice_mid OFF_IFACE) by (rewrite ?Lh, ?zeros_length; reflexivity).
  unfold h, wire. rewrite <- !app_assoc. reflexivity.
Qed.

Lemma le_dec1 n : (n < 256)%N -> le_dec (le_enc 1 n) = n.
Proof. intros H. rewrite le_dec_enc. apply N.mod_small. exact H. Qed.

(** The fields of a message of the right length. *)
Lemma fields (m : bytes) c rest : typed c -> length (g_iface c) < 256 -> length m = 324 ->
  skipn 4 m = g_psk c ++ g_peer c ++ le_enc 1 (N.of_nat (length (g_iface c))) ++ g_iface c ++ rest ->
  iface_bin m = g_iface c /\ slice OFF_PEER 32 m = g_peer c /\ slice OFF_PSK 32 m = g_psk c.
Proof.
  intros (A & B) L Lm Sk. rewrite <- (firstn_skipn 4 m). rewrite Sk.
  assert (L4 : length (firstn 4 m) = 4) by (rewrite firstn_length; lia).
  set (h := firstn 4 m) in *. clearbody h.
  assert (Lr : length (g_iface c ++ rest) = 255).
  { apply (f_equal (@length byte)) in Sk. rewrite skipn_length, !app_length, le_enc_length, A, B in Sk.
    rewrite app_length. lia. }
  split; [|split].
  - unfold iface_bin.
    assert (E1 : h ++ g_psk c ++ g_peer c ++ le_enc 1 (N.of_nat (length (g_iface c))) ++ g_iface c ++ rest =
                 (h ++ g_psk c ++ g_peer c) ++ le_enc 1 (N.of_nat (length (g_iface c))) ++ (g_iface c ++ rest)).
    { now rewrite <- !app_assoc. }
    rewrite E1. rewrite (slice_mid OFF_SIZE 1) by (rewrite ?app_length, ?le_enc_length, ?A, ?B, ?L4; reflexivity).
    rewrite le_dec1, Nat2N.id by lia. rewrite app_assoc. rewrite <- (app_nil_r (g_iface c ++ rest)).
    rewrite (slice_mid OFF_IFACE 255) by (rewrite ?app_length, ?le_enc_length, ?A, ?B, ?L4, ?app_length in *; try reflexivity; lia).
    rewrite firstn_app, firstn_all, Nat.sub_diag, firstn_O, app_nil_r. reflexivity.
  - rewrite app_assoc. apply slice_mid; [rewrite app_length, A, L4; reflexivity|exact B].
  - apply slice_mid; [rewrite L4; reflexivity|exact A].
Qed.

(** Every message of the right length has such fields, with a name that may or may not be text. *)
Lemma has_fields m : length m = 324 -> exists c rest, typed c /\ length (g_iface c) < 256 /\ g_iface c = iface_bin m /\
  skipn 4 m = g_psk c ++ g_peer c ++ le_enc 1 (N.of_nat (length (g_iface c))) ++ g_iface c ++ rest.
Proof.
  intros L. set (i := iface_bin m).
  assert (Lb : N.to_nat (le_dec (slice OFF_SIZE 1 m)) < 256).
  { assert (L1 : length (slice OFF_SIZE 1 m) = 1) by (apply slice_length; unfold OFF_SIZE, OFF_PEER, OFF_PSK, OFF_PAYLOAD; lia).
    pose proof (le_dec_bound (slice OFF_SIZE 1 m)) as Hb. rewrite L1 in Hb. change (pow256 1) with 256%N in Hb. lia. }
  assert (Li : length i = N.to_nat (le_dec (slice OFF_SIZE 1 m))).
  { unfold i, iface_bin. rewrite firstn_length, slice_length by (unfold OFF_IFACE, OFF_SIZE, OFF_PEER, OFF_PSK, OFF_PAYLOAD; lia). lia. }
  exists {| g_iface := i; g_peer := slice OFF_PEER 32 m; g_psk := slice OFF_PSK 32 m; g_extra := [] |},
    (skipn (length i) (slice OFF_IFACE 255 m)).
  cbn [g_iface g_peer g_psk]. unfold typed. cbn [g_peer g_psk].
  split; [split; apply slice_length; unfold OFF_PEER, OFF_PSK, OFF_PAYLOAD; lia|].
  split; [lia|]. split; [reflexivity|].
  rewrite Li, N2Nat.id.
  assert (E1 : le_enc 1 (le_dec (slice OFF_SIZE 1 m)) = slice OFF_SIZE 1 m).
  { assert (L1 : length (slice OFF_SIZE 1 m) = 1) by (apply slice_length; unfold OFF_SIZE, OFF_PEER, OFF_PSK, OFF_PAYLOAD; lia).
    rewrite <- L1 at 1. apply le_enc_dec. }
  rewrite E1. unfold i, iface_bin. rewrite firstn_skipn. unfold slice, OFF_IFACE, OFF_SIZE, OFF_PEER, OFF_PSK, OFF_PAYLOAD.
  assert (G : forall n k (l : bytes), firstn n (skipn k l) ++ skipn (k + n) l = skipn k l).
  { intros n k l. rewrite <- (firstn_skipn n (skipn k l)) at 2. f_equal. revert l n. induction k as [|k IH]; intros l n; cbn [Nat.add skipn]; [reflexivity|].
    destruct l; [now rewrite skipn_nil|apply IH]. }
  rewrite (firstn_all2 (n := 255)) by (rewrite skipn_length; cbn [Nat.add]; lia). cbn [Nat.add].
  rewrite (G 1 68 m : firstn 1 (skipn 68 m) ++ skipn 69 m = skipn 68 m).
  rewrite (G 32 36 m : firstn 32 (skipn 36 m) ++ skipn 68 m = skipn 36 m).
  rewrite (G 32 4 m : firstn 32 (skipn 4 m) ++ skipn 36 m = skipn 4 m). reflexivity.
Qed.

Section Server.
Context (utf8 : bytes -> bool) {S E : Type} (inner : bconfig -> S -> S * option E) (conv : E -> psk_err).

(** What a broker is asked to set: the fields of the message. *)
Definition asked (c : bconfig) : bconfig :=
  {| g_iface := g_iface c; g_peer := g_peer c; g_psk := g_psk c; g_extra := [] |}.

Lemma splice_resp (res : bytes) b : length res = 5 -> firstn 3 (skipn 1 res) = [x00; x00; x00] ->
  splice OFF_PAYLOAD [b] (splice 0 [SET_PSK] res) = [x01; x00; x00; x00; b].
Proof.
  intros L Z. destruct res as [|r0 [|r1 [|r2 [|r3 [|r4 [|]]]]]]; try discriminate L. cbn in Z.
  injection Z as -> -> ->. reflexivity.
Qed.

(** A valid message is passed on with its fields unchanged, and answered with the result. *)
Lemma handle_valid m c rest res s : typed c -> utf8 (g_iface c) = true -> length (g_iface c) < 256 ->
  length m = 324 -> firstn 1 m = [x01] ->
  skipn 4 m = g_psk c ++ g_peer c ++ le_enc 1 (N.of_nat (length (g_iface c))) ++ g_iface c ++ rest ->
  length res = 5 -> firstn 3 (skipn 1 res) = [x00; x00; x00] ->
  handle_message utf8 inner conv m res s =
    (fst (inner (asked c) s), response (option_map conv (snd (inner (asked c) s))), Some 5).
Proof.
  intros T U L Lm F1 Sk Lr Zr. unfold handle_message. destruct m as [|b m0]; [discriminate Lm|].
  cbn [firstn] in F1. injection F1 as ->. rewrite Lm. cbn [is_set_psk andb Nat.eqb REQUEST_MSG_BUFFER_SIZE ENVELOPE_OVERHEAD Nat.add].
  destruct (fields _ _ _ T L Lm Sk) as (A & B & C). unfold handle_set_psk. rewrite A, B, C, U.
  fold (asked c). destruct (inner (asked c) s) as [s' r]. rewrite splice_resp by assumption. reflexivity.
Qed.

(** For every key, peer and name of an interface the request made by the client has the
    privileged broker pass exactly these to its inner broker, and the client reads its result. *)
Theorem C38_unchanged : forall F c m s, typed c -> set_psk_request (E := F) utf8 c = Ok m ->
  exists res,
    handle_message utf8 inner conv m (zeros 5) s = (fst (inner (asked c) s), res, Some 5) /\ length res = 5 /\
    read_response res = Some (option_map conv (snd (inner (asked c) s))).
Proof.
  intros F c m s T R. rewrite request_ok in R by exact T.
  destruct (utf8 (g_iface c)) eqn:U; [|discriminate R].
  destruct (Nat.ltb_spec (length (g_iface c)) 256) as [L|L]; [|discriminate R].
  assert (m = wire c) as -> by congruence.
  rewrite (handle_valid (wire c) c (zeros (255 - length (g_iface c)))); auto; try reflexivity; [|now apply wire_length].
  eexists. split; [reflexivity|]. split; [reflexivity|]. destruct (option_map conv _) as [[]|]; reflexivity.
Qed.

(** The client makes no request for a name that is not text or is too long, and one for every other. *)
Theorem C38_refused : forall F c, typed c ->
  (exists m, set_psk_request (E := F) utf8 c = Ok m) <-> utf8 (g_iface c) = true /\ length (g_iface c) <= 255.
Proof.
  intros F c T. rewrite request_ok by exact T. destruct (utf8 (g_iface c)).
  - destruct (Nat.ltb_spec (length (g_iface c)) 256) as [L|L]; split.
    + intros _. split; [reflexivity|lia].
    + eauto.
    + intros (m & Z). discriminate Z.
    + lia.
  - split; [intros (m & Z); discriminate Z|intros (Z & _); discriminate Z].
Qed.

(** The privileged broker passes on valid messages only, and answers no other. *)
Theorem C38_only_valid : forall m res s, length res = 5 ->
  (valid utf8 m -> exists s' res', handle_message utf8 inner conv m res s = (s', res', Some 5)) /\
  (~ valid utf8 m -> exists res', handle_message utf8 inner conv m res s = (s, res', None)).
Proof.
  intros m res s Lr. unfold handle_message.
  assert (Sp : forall d l, length d = 1 -> length l = 5 -> length (splice 0 d l) = 5 /\ length (splice OFF_PAYLOAD d l) = 5).
  { intros d l Ld Ll. split; rewrite splice_length; try assumption; rewrite Ld, Ll; cbn; lia. }
  split.
  - intros (c & rest & T & U & L & Lm & F1 & Sk). destruct m as [|b m0]; [discriminate Lm|].
    cbn [firstn] in F1. injection F1 as ->. rewrite Lm. cbn [is_set_psk andb Nat.eqb REQUEST_MSG_BUFFER_SIZE ENVELOPE_OVERHEAD Nat.add].
    destruct (fields _ _ _ T L Lm Sk) as (A & B & C). unfold handle_set_psk. rewrite A, B, C, U.
    destruct (inner _ s) as [s' r].
    assert (L5 : length (splice OFF_PAYLOAD [code_of (option_map conv r)] (splice 0 [SET_PSK] res)) = 5).
    { apply Sp; [reflexivity|]. now apply Sp. }
    rewrite L5. eauto.
  - intros NV. destruct m as [|b m0]; [eauto|]. set (m := b :: m0) in *.
    destruct (is_set_psk b) eqn:Ib; cbn [andb]; [|eauto].
    destruct (Nat.eqb_spec (length m) REQUEST_MSG_BUFFER_SIZE) as [Lm|Lm]; [|eauto].
    unfold handle_set_psk. destruct (utf8 (iface_bin m)) eqn:U; [|eauto]. exfalso. apply NV.
    destruct (has_fields m Lm) as (c & rest & T & L & Ei & Sk). exists c, rest. rewrite Ei.
    split; [exact T|]. split; [exact U|]. rewrite <- Ei. split; [exact L|]. split; [exact Lm|]. split; [|exact Sk].
    unfold m. cbn [firstn]. destruct b; try discriminate Ib. reflexivity.
Qed.
End Server.
Print Assumptions C38_unchanged.
Print Assumptions C38_refused.
Print Assumptions C38_only_valid.

(** The client takes only messages of exactly the size and type of a response with a known result for one. *)
Theorem C38_response_read : forall m r, read_response m = Some r <->
  length m = 5 /\ firstn 1 m = [x01] /\ skipn 4 m = [reply_byte r].
Proof.
  intros m r. unfold read_response. split.
  - destruct m as [|b m]; [discriminate|]. destruct (is_set_psk b) eqn:Ib; [|discriminate].
    destruct (Nat.eqb_spec (length (b :: m)) RESPONSE_MSG_BUFFER_SIZE) as [L|L]; [|discriminate]. cbn [andb]. intros O.
    split; [exact L|]. split; [destruct b; try discriminate Ib; reflexivity|].
    destruct m as [|b1 [|b2 [|b3 [|b4 [|b5 m]]]]]; try discriminate L. cbn [skipn nth OFF_PAYLOAD] in *.
    destruct b4; cbn in O; try discriminate O; injection O as <-; reflexivity.
  - intros (L & F & S). destruct m as [|b0 [|b1 [|b2 [|b3 [|b4 [|b5 m]]]]]]; try discriminate L.
    cbn [firstn skipn] in F, S. injection F as ->. injection S as ->. cbn. destruct r as [[]|]; reflexivity.
Qed.
Print Assumptions C38_response_read.

(** Additional parameters of the WireGuard peer are not part of the request: they are lost. *)
Theorem C38_extra_lost_refuted : forall utf8 F c extra, set_psk_request (E := F) utf8 c =
  set_psk_request utf8 {| g_iface := g_iface c; g_peer := g_peer c; g_psk := g_psk c; g_extra := extra |}.
Proof. reflexivity. Qed.
Print Assumptions C38_extra_lost_refuted.

(** * The netlink broker *)

Definition key_of (iface peer : bytes) (k : kernel) : option bytes :=
  match wg_get iface k with
  | Some d => option_map snd (find (fun p => byteseq (fst p) peer) d)
  | None => None
  end.

Lemma byteseq_spec a b : byteseq a b = true <-> a = b.
Proof. unfold byteseq. destruct (list_eq_dec _ a b); split; congruence. Qed.
Lemma byteseq_refl a : byteseq a a = true.
Proof. now apply byteseq_spec. Qed.

Lemma find_peer_set peer psk q (d : wg_device) :
  option_map snd (find (fun p => byteseq (fst p) q) (map (fun p => if byteseq (fst p) peer then (peer, psk) else p) d)) =
  if byteseq peer q then match find (fun p => byteseq (fst p) q) d with Some _ => Some psk | None => None end
  else option_map snd (find (fun p => byteseq (fst p) q) d).
Proof.
  induction d as [|(p0, k0) d IH]; cbn [map find fst]; [now destruct (byteseq peer q)|].
  destruct (byteseq p0 peer) eqn:A; cbn [fst].
  - apply byteseq_spec in A. subst p0. destruct (byteseq peer q); [reflexivity|exact IH].
  - destruct (byteseq p0 q) eqn:B; [|exact IH]. apply byteseq_spec in B. subst q.
    destruct (byteseq peer p0) eqn:C; [|reflexivity]. apply byteseq_spec in C. subst. now rewrite byteseq_refl in A.
Qed.

Lemma key_set iface peer psk i q k :
  key_of i q (wg_set iface peer psk k) =
  if byteseq iface i && byteseq peer q
  then match key_of i q k with Some _ => Some psk | None => None end else key_of i q k.
Proof.
  unfold key_of, wg_get, wg_set. induction k as [|(n, d) k IH]; cbn [map find fst option_map].
  - now destruct (_ && _).
  - destruct (byteseq n iface) eqn:A; cbn [fst].
    + apply byteseq_spec in A. subst n. destruct (byteseq iface i) eqn:B; cbn [option_map snd andb].
      * rewrite find_peer_set. destruct (byteseq peer q); [|reflexivity]. now destruct (find _ d).
      * exact IH.
    + destruct (byteseq n i) eqn:B; [|exact IH]. cbn [option_map snd]. apply byteseq_spec in B. subst i.
      destruct (byteseq iface n) eqn:C; [|reflexivity]. apply byteseq_spec in C. subst. now rewrite byteseq_refl in A.
Qed.

(** If the netlink broker reports success, the peer is there and exactly its key has changed, to the
    given one; otherwise nothing has changed. *)
Theorem C38_netlink : forall utf8 ok c k k' r, netlink_set_psk utf8 ok c k = (k', r) ->
  match r with
  | None => key_of (g_iface c) (g_peer c) k <> None /\ key_of (g_iface c) (g_peer c) k' = Some (g_psk c) /\
            (forall i p, (i, p) <> (g_iface c, g_peer c) -> key_of i p k' = key_of i p k)
  | Some _ => k' = k
  end.
Proof.
  intros utf8 ok c k k' r. unfold netlink_set_psk.
  destruct (utf8 (g_iface c)); [|intros [= <- <-]; reflexivity].
  destruct (wg_get (g_iface c) k) as [d|] eqn:G; [|intros [= <- <-]; reflexivity].
  destruct (existsb _ d) eqn:Ex; [|intros [= <- <-]; reflexivity].
  destruct ok; [|intros [= <- <-]; reflexivity]. intros [= <- <-].
  assert (Kn : key_of (g_iface c) (g_peer c) k <> None).
  { unfold key_of. rewrite G. apply existsb_exists in Ex. destruct Ex as (p & Hin & Ep).
    destruct (find (fun p => byteseq (fst p) (g_peer c)) d) eqn:Fi; [discriminate|].
    pose proof (find_none _ _ Fi p Hin) as Z. cbn beta in Z. congruence. }
  split; [exact Kn|]. split.
  - rewrite key_set, !byteseq_refl. cbn [andb]. destruct (key_of _ _ k); [reflexivity|congruence].
  - intros i p Ne. rewrite key_set. destruct (byteseq (g_iface c) i) eqn:A; [|reflexivity].
    destruct (byteseq (g_peer c) p) eqn:B; [|reflexivity]. apply byteseq_spec in A, B. congruence.
Qed.
Print Assumptions C38_netlink.

(** The client of the privileged broker is told when the peer does not exist. *)
Theorem C38_no_such_peer : forall utf8 ok c k, utf8 (g_iface c) = true -> wg_get (g_iface c) k <> None ->
  key_of (g_iface c) (g_peer c) k = None ->
  option_map nl_conv (snd (netlink_set_psk utf8 ok c k)) = Some NoSuchPeer.
Proof.
  intros utf8 ok c k U G K. unfold netlink_set_psk. rewrite U. unfold key_of in K.
  destruct (wg_get (g_iface c) k) as [d|]; [|congruence].
  destruct (existsb (fun p => byteseq (fst p) (g_peer c)) d) eqn:Ex; [|reflexivity].
  apply existsb_exists in Ex. destruct Ex as (p & Hin & Ep).
  destruct (find (fun p => byteseq (fst p) (g_peer c)) d) eqn:Fi; [discriminate K|].
  pose proof (find_none _ _ Fi p Hin) as Z. cbn beta in Z. congruence.
Qed.
Print Assumptions C38_no_such_peer.

(** But it is never told that the interface does not exist: that is reported as an internal error. *)
Theorem C38_no_such_interface_refuted : forall utf8 ok c k,
  option_map nl_conv (snd (netlink_set_psk utf8 ok c k)) <> Some NoSuchInterface /\
  (utf8 (g_iface c) = true -> wg_get (g_iface c) k = None ->
   option_map nl_conv (snd (netlink_set_psk utf8 ok c k)) = Some InternalError).
Proof.
  intros utf8 ok c k. unfold netlink_set_psk. split.
  - destruct (utf8 (g_iface c)); [|discriminate]. destruct (wg_get (g_iface c) k); [|discriminate].
    destruct (existsb _ _); [|discriminate]. destruct ok; discriminate.
  - intros -> ->. reflexivity.
Qed.
Print Assumptions C38_no_such_interface_refuted.

(** * The privileged broker and the socket handler *)

Section Pipeline.
Context (utf8 : bytes -> bool) {S E : Type} (inner : bconfig -> S -> S * option E) (conv : E -> psk_err).

(** The inner broker is asked for one configuration after the other. *)
Fixpoint ask_all (cs : list bconfig) (s : S) : S * list (option E) :=
  match cs with
  | [] => (s, [])
  | c :: cs => let (s, r) := inner (asked c) s in let (s, rs) := ask_all cs s in (s, r :: rs)
  end.

Definition good (c : bconfig) : Prop := typed c /\ utf8 (g_iface c) = true /\ length (g_iface c) <= 255.

Lemma step_good c s : good c ->
  priv_step utf8 inner conv (wire c) s =
    (fst (inner (asked c) s), Some (frame (response (option_map conv (snd (inner (asked c) s)))))).
Proof.
  intros (T & U & L). unfold priv_step. assert (L' : length (g_iface c) < 256) by lia. pose proof (wire_length c T L') as Lw.
  rewrite (handle_valid utf8 inner conv (wire c) c (zeros (255 - length (g_iface c)))) by (auto; reflexivity).
  reflexivity.
Qed.

Lemma priv_loop_frame n m rest s : length m <= 324 ->
  priv_loop utf8 inner conv (Datatypes.S n) (frame m ++ rest) s =
    let (s', o) := priv_step utf8 inner conv m s in
    let '(s'', l, e) := priv_loop utf8 inner conv n rest s' in (s'', o :: l, e).
Proof.
  intros L. cbn [priv_loop].
  assert (Lf : length (frame m ++ rest) = 8 + length m + length rest) by (rewrite app_length, frame_length; lia).
  destruct (Nat.ltb_spec (length (frame m ++ rest)) 8) as [X|_]; [lia|].
  assert (H8 : firstn 8 (frame m ++ rest) = le_enc 8 (N.of_nat (length m))).
  { unfold frame. rewrite <- app_assoc, firstn_app, firstn_all2, le_enc_length by (rewrite le_enc_length; lia).
    cbn [Nat.sub firstn]. apply app_nil_r. }
  assert (T8 : skipn 8 (frame m ++ rest) = m ++ rest).
  { unfold frame. rewrite <- app_assoc, skipn_app, skipn_all2, le_enc_length by (rewrite le_enc_length; lia). reflexivity. }
  rewrite H8, T8. rewrite le_dec_enc, N.mod_small by (change (pow256 8) with 18446744073709551616%N; lia).
  destruct (N.ltb_spec (N.of_nat REQUEST_MSG_BUFFER_SIZE) (N.of_nat (length m))) as [X|_].
  { change REQUEST_MSG_BUFFER_SIZE with 324 in X. lia. }
  rewrite Nat2N.id. destruct (Nat.ltb_spec (length (m ++ rest)) (length m)) as [X|_]; [rewrite app_length in X; lia|].
  rewrite firstn_app, firstn_all, Nat.sub_diag, firstn_O, app_nil_r.
  rewrite skipn_app, skipn_all, Nat.sub_diag. reflexivity.
Qed.

(** The requests of a client, sent one after the other, have the inner broker asked for exactly
    these keys in this order, and are answered in this order with its results. *)
Theorem C38_pipeline : forall cs s, Forall good cs ->
  privileged utf8 inner conv (concat (map (fun c => frame (wire c)) cs)) s =
    (fst (ask_all cs s), map (fun r => Some (frame (response (option_map conv r)))) (snd (ask_all cs s)), PEof).
Proof.
  intros cs s G. unfold privileged.
  assert (Hn : forall n s, length cs < n -> priv_loop utf8 inner conv n (concat (map (fun c => frame (wire c)) cs)) s =
    (fst (ask_all cs s), map (fun r => Some (frame (response (option_map conv r)))) (snd (ask_all cs s)), PEof)).
  { clear s. induction G as [|c cs Gc G IH]; intros n s L.
    - destruct n; [lia|]. reflexivity.
    - destruct n; [lia|]. cbn [map concat]. rewrite priv_loop_frame.
      + rewrite step_good by exact Gc. cbn [ask_all]. destruct (inner (asked c) s) as [s1 r1]. cbn [fst snd].
        rewrite IH by (cbn [length] in L; lia). destruct (ask_all cs s1) as [s2 rs]. reflexivity.
      + destruct Gc as (T & _ & Li). rewrite wire_length; auto; lia. }
  apply Hn. assert (Le : length cs <= length (concat (map (fun c => frame (wire c)) cs))); [|lia].
  clear. induction cs as [|c cs IH]; cbn [map concat length]; [lia|]. rewrite app_length, frame_length. lia.
Qed.

(** The socket handler answers valid requests one after the other, each to the connection it came from. *)
Theorem C40_valid_partial : forall queue s, Forall (fun q => valid utf8 (snd q)) queue ->
  exists s' rs, serve utf8 inner conv queue s =
      (s', map (fun x => (fst (fst x), frame (response (snd x)))) (combine queue rs), true) /\
    length rs = length queue.
Proof.
  intros queue s V. revert s. induction V as [|(i, m) queue Vm V IH]; intros s.
  - exists s, []. split; reflexivity.
  - cbn [serve]. destruct Vm as (c & rest & T & U & L & Lm & F1 & Sk). cbn [snd] in *.
    unfold priv_step. rewrite (handle_valid utf8 inner conv m c rest) by (auto; reflexivity).
    destruct (IH (fst (inner (asked c) s))) as (s' & rs & Sv & Lr). rewrite Sv.
    exists s', (option_map conv (snd (inner (asked c) s)) :: rs). split; [reflexivity|]. cbn [length]. now rewrite Lr.
Qed.

(** But a request that is not valid is not answered, and neither is any request after it, of
    whatever connection. *)
Theorem C40_wedge_refuted : forall q1 i bad q2 s, Forall (fun q => valid utf8 (snd q)) q1 -> ~ valid utf8 bad ->
  exists s' rs, serve utf8 inner conv (q1 ++ (i, bad) :: q2) s =
      (s', map (fun x => (fst (fst x), frame (response (snd x)))) (combine q1 rs), false) /\ length rs = length q1.
Proof.
  intros q1 i bad q2 s V NV. revert s. induction V as [|(j, m) q1 Vm V IH]; intros s.
  - cbn [List.app serve]. unfold priv_step.
    destruct (C38_only_valid utf8 inner conv bad (zeros RESPONSE_MSG_BUFFER_SIZE) s eq_refl) as (_ & B).
    destruct (B NV) as (res' & Hm). rewrite Hm. exists s, []. split; reflexivity.
  - cbn [List.app serve]. destruct Vm as (c & rest & T & U & L & Lm & F1 & Sk). cbn [snd] in *.
    unfold priv_step. rewrite (handle_valid utf8 inner conv m c rest) by (auto; reflexivity).
    destruct (IH (fst (inner (asked c) s))) as (s' & rs & Sv & Lr). rewrite Sv.
    exists s', (option_map conv (snd (inner (asked c) s)) :: rs). split; [reflexivity|]. cbn [length]. now rewrite Lr.
Qed.

(** The same for the privileged broker: the output has a response for every valid request and none for the others. *)
Theorem C40_responses : forall ms s, Forall (fun m => length m <= 324) ms ->
  exists s' l, privileged utf8 inner conv (concat (map frame ms)) s = (s', l, PEof) /\
    Forall2 (fun m o => (valid utf8 m -> exists r, o = Some (frame (response r))) /\ (~ valid utf8 m -> o = None)) ms l.
Proof.
  intros ms s F. unfold privileged.
  assert (Hn : forall n s, length ms < n -> exists s' l, priv_loop utf8 inner conv n (concat (map frame ms)) s = (s', l, PEof) /\
    Forall2 (fun m o => (valid utf8 m -> exists r, o = Some (frame (response r))) /\ (~ valid utf8 m -> o = None)) ms l).
  { clear s. induction F as [|m ms Lm F IH]; intros n s L; (destruct n; [lia|]).
    - exists s, []. split; [reflexivity|constructor].
    - cbn [map concat]. rewrite priv_loop_frame by exact Lm. destruct (priv_step utf8 inner conv m s) as [s1 o] eqn:St.
      destruct (IH n s1) as (s' & l & R & F2); [cbn [length] in L; lia|]. rewrite R.
      exists s', (o :: l). split; [reflexivity|]. constructor; [|exact F2]. unfold priv_step in St. split.
      + intros (c & rest & T & U & Li & Lm' & F1 & Sk).
        rewrite (handle_valid utf8 inner conv m c rest) in St by (auto; reflexivity).
        exists (option_map conv (snd (inner (asked c) s))).
        assert (Z := f_equal snd St). symmetry. exact Z.
      + intros NV. destruct (C38_only_valid utf8 inner conv m (zeros RESPONSE_MSG_BUFFER_SIZE) s eq_refl) as (_ & B).
        destruct (B NV) as (res' & Hm). rewrite Hm in St. congruence. }
  apply Hn. assert (Le : length ms <= length (concat (map frame ms))); [|lia].
  clear. induction ms as [|m ms IH]; cbn [map concat length]; [lia|]. rewrite app_length, frame_length. lia.
Qed.
(** The end of the input: a message of which a part is missing, or whose announced length is [n], more than 324. *)
Definition cut_short (rest : bytes) : Prop :=
  length rest < 8 \/ (le_dec (firstn 8 rest) <= 324 /\ N.of_nat (length rest) < 8 + le_dec (firstn 8 rest))%N.
Definition announces (rest : bytes) (n : N) : Prop := 8 <= length rest /\ le_dec (firstn 8 rest) = n.

(** Every input is a sequence of messages and a rest.  The messages are handled as they are without the rest, and the rest
    has no effect but to end the broker. *)
Theorem C40_every_input : forall input s, exists ms rest,
  input = concat (map frame ms) ++ rest /\ Forall (fun m => length m <= 324) ms /\
  exists s' l e, privileged utf8 inner conv input s = (s', l, e) /\ privileged utf8 inner conv (concat (map frame ms)) s = (s', l, PEof) /\
    ((e = PEof /\ cut_short rest) \/ exists n, e = POversized n /\ announces rest n /\ (324 < n)%N).
Proof.
  intros input s. unfold privileged.
  assert (Hn : forall n s input, length input < n -> exists ms rest,
    input = concat (map frame ms) ++ rest /\ Forall (fun m => length m <= 324) ms /\
    exists s' l e, priv_loop utf8 inner conv n input s = (s', l, e) /\
      (forall k, length ms < k -> priv_loop utf8 inner conv k (concat (map frame ms)) s = (s', l, PEof)) /\
      ((e = PEof /\ cut_short rest) \/ exists n, e = POversized n /\ announces rest n /\ (324 < n)%N)).
  { clear input s. induction n as [|n IH]; intros s input L; [lia|].
    assert (Stop : forall e, priv_loop utf8 inner conv (Datatypes.S n) input s = (s, [], e) ->
      ((e = PEof /\ cut_short input) \/ exists n, e = POversized n /\ announces input n /\ (324 < n)%N) ->
      exists ms rest, input = concat (map frame ms) ++ rest /\ Forall (fun m => length m <= 324) ms /\
      exists s' l e, priv_loop utf8 inner conv (Datatypes.S n) input s = (s', l, e) /\
        (forall k, length ms < k -> priv_loop utf8 inner conv k (concat (map frame ms)) s = (s', l, PEof)) /\
        ((e = PEof /\ cut_short rest) \/ exists n, e = POversized n /\ announces rest n /\ (324 < n)%N)).
    { intros e Ee Hr. exists [], input. split; [reflexivity|]. split; [constructor|]. exists s, [], e. split; [exact Ee|]. split; [|exact Hr].
      intros k Lk. destruct k; [cbn [length] in Lk; lia|reflexivity]. }
    destruct (Nat.ltb_spec (length input) 8) as [S8|S8].
    { apply (Stop PEof); [|left; split; [reflexivity|now left]]. cbn [priv_loop]. now rewrite (proj2 (Nat.ltb_lt _ _) S8). }
    destruct (N.ltb_spec 324 (le_dec (firstn 8 input))) as [Ov|Fit].
    { apply (Stop (POversized (le_dec (firstn 8 input)))); [|right; eexists; split; [reflexivity|]; split; [split; [exact S8|reflexivity]|exact Ov]].
      cbn [priv_loop]. rewrite (proj2 (Nat.ltb_ge _ _) S8). change (N.of_nat REQUEST_MSG_BUFFER_SIZE) with 324%N.
      now rewrite (proj2 (N.ltb_lt _ _) Ov). }
    remember (N.to_nat (le_dec (firstn 8 input))) as k eqn:Ek.
    destruct (Nat.ltb_spec (length (skipn 8 input)) k) as [Sh|Ge].
    { apply (Stop PEof).
      - cbn [priv_loop]. rewrite (proj2 (Nat.ltb_ge _ _) S8). change (N.of_nat REQUEST_MSG_BUFFER_SIZE) with 324%N.
        rewrite (proj2 (N.ltb_ge _ _) Fit), <- Ek. now rewrite (proj2 (Nat.ltb_lt _ _) Sh).
      - left. split; [reflexivity|]. right. rewrite skipn_length in Sh. lia. }
    set (m := firstn k (skipn 8 input)) in *.
    assert (Lm : length m = k) by (unfold m; rewrite firstn_length; lia).
    assert (Ei : input = frame m ++ skipn k (skipn 8 input)).
    { unfold frame. rewrite Lm, Ek, N2Nat.id. replace 8 with (length (firstn 8 input)) at 1 by (rewrite firstn_length; lia).
      rewrite le_enc_dec, <- app_assoc, <- Ek. unfold m. now rewrite firstn_skipn, firstn_skipn. }
    assert (Lm' : length m <= 324) by lia.
    destruct (priv_step utf8 inner conv m s) as [s1 o] eqn:St.
    destruct (IH s1 (skipn k (skipn 8 input))) as (ms & rest & Er & F & s' & l & e & R1 & R2 & R3).
    { rewrite !skipn_length. lia. }
    exists (m :: ms), rest. split; [cbn [map concat]; rewrite <- app_assoc, <- Er; exact Ei|]. split; [constructor; [exact Lm'|exact F]|].
    exists s', (o :: l), e. split; [|split; [|exact R3]].
    - rewrite Ei at 1. rewrite priv_loop_frame, St, R1 by exact Lm'. reflexivity.
    - intros j Lj. destruct j; [lia|]. cbn [map concat]. rewrite priv_loop_frame, St by exact Lm'. rewrite R2 by (cbn [length] in Lj; lia). reflexivity. }
  destruct (Hn (Datatypes.S (length input)) s input ltac:(lia)) as (ms & rest & Er & F & s' & l & e & R1 & R2 & R3).
  exists ms, rest. split; [exact Er|]. split; [exact F|]. exists s', l, e. split; [exact R1|]. split; [|exact R3]. apply R2.
  assert (Le : length ms <= length (concat (map frame ms))); [|lia].
  clear. induction ms as [|m ms IH]; cbn [map concat length]; [lia|]. rewrite app_length, frame_length. lia.
Qed.
End Pipeline.
Print Assumptions C38_pipeline.
Print Assumptions C40_valid_partial.
Print Assumptions C40_wedge_refuted.
Print Assumptions C40_responses.
Print Assumptions C40_every_input.

(** Every connection can put any request of at most 324 bytes into that queue, for example the empty one. *)
Theorem C40_anyone_refuted : forall m rest, length m <= 324 -> accept_request (frame m ++ rest) = Some (m, rest).
Proof.
  intros m rest L. unfold accept_request.
  assert (Lf : length (frame m ++ rest) = 8 + length m + length rest) by (rewrite app_length, frame_length; lia).
  destruct (Nat.ltb_spec (length (frame m ++ rest)) 8) as [X|_]; [lia|].
  assert (H8 : firstn 8 (frame m ++ rest) = le_enc 8 (N.of_nat (length m))).
  { unfold frame. rewrite <- app_assoc, firstn_app, firstn_all2, le_enc_length by (rewrite le_enc_length; lia).
    cbn [Nat.sub firstn]. apply app_nil_r. }
  assert (T8 : skipn 8 (frame m ++ rest) = m ++ rest).
  { unfold frame. rewrite <- app_assoc, skipn_app, skipn_all2, le_enc_length by (rewrite le_enc_length; lia). reflexivity. }
  rewrite H8, T8. rewrite le_dec_enc, N.mod_small by (change (pow256 8) with 18446744073709551616%N; lia).
  destruct (N.ltb_spec (N.of_nat REQUEST_MSG_BUFFER_SIZE) (N.of_nat (length m))) as [X|_].
  { change REQUEST_MSG_BUFFER_SIZE with 324 in X. lia. }
  rewrite Nat2N.id. destruct (Nat.ltb_spec (length (m ++ rest)) (length m)) as [X|_]; [rewrite app_length in X; lia|].
  rewrite firstn_app, firstn_all, Nat.sub_diag, firstn_O, app_nil_r.
  rewrite skipn_app, skipn_all, Nat.sub_diag. reflexivity.
Qed.
Print Assumptions C40_anyone_refuted.

(** What is put into the queue is the body of a message of at most 324 bytes, and there is nothing else that is put there: a connection
    whose input does not start with such a message waits for more or ends. *)
Theorem C40_requests_read : forall input m rest,
  accept_request input = Some (m, rest) <-> length m <= 324 /\ input = frame m ++ rest.
Proof.
  intros input m rest. split; [|intros (L & ->); now apply C40_anyone_refuted].
  unfold accept_request. destruct (Nat.ltb_spec (length input) 8) as [S|S]; [discriminate|].
  destruct (N.ltb_spec (N.of_nat REQUEST_MSG_BUFFER_SIZE) (le_dec (firstn 8 input))) as [O|O]; [discriminate|].
  change REQUEST_MSG_BUFFER_SIZE with 324 in O.
  destruct (Nat.ltb_spec (length (skipn 8 input)) (N.to_nat (le_dec (firstn 8 input)))) as [M|M]; [discriminate|].
  intros E. assert (Em : m = firstn (N.to_nat (le_dec (firstn 8 input))) (skipn 8 input)) by congruence.
  assert (Er : rest = skipn (N.to_nat (le_dec (firstn 8 input))) (skipn 8 input)) by congruence. clear E.
  assert (Lm : length m = N.to_nat (le_dec (firstn 8 input))) by (rewrite Em, firstn_length; lia).
  split; [lia|]. unfold frame. rewrite Lm, N2Nat.id.
  assert (H8 : le_enc 8 (le_dec (firstn 8 input)) = firstn 8 input).
  { replace 8 with (length (firstn 8 input)) at 1 by (rewrite firstn_length; lia). apply le_enc_dec. }
  rewrite H8, Em, Er, <- app_assoc, (firstn_skipn (N.to_nat _)). symmetry. apply firstn_skipn.
Qed.
Print Assumptions C40_requests_read.

Lemma empty_invalid utf8 : ~ valid utf8 [].
Proof. intros (c & rest & _ & _ & _ & L & _). discriminate L. Qed.

(** * The client over a socket *)

Lemma slice_exact e pend : eok e pend -> pend <> [] ->
  next_slice e = Ok (if Nat.ltb (e_pos e) 8 then firstn (8 - e_pos e) pend else pend).
Proof.
  intros K N. unfold next_slice, header_left, e_hoff, HEADER_SIZE.
  rewrite take_from_ok by (rewrite (ek_h _ _ K); lia). cbn [rbind].
  pose proof (ek_p _ _ K) as Hp. pose proof (ek_l _ _ K) as Hl.
  pose proof (ek_w _ _ K) as W. unfold wire_of in W. rewrite skipn_app in W.
  destruct (Nat.ltb_spec (e_pos e) 8) as [L|L].
  - rewrite Nat.min_l by lia.
    assert (Lh : length (skipn (e_pos e) (e_header e)) = 8 - e_pos e) by (rewrite skipn_length, (ek_h _ _ K); lia).
    destruct (skipn (e_pos e) (e_header e)) eqn:Es; [cbn [length] in Lh; lia|]. f_equal.
    rewrite W, firstn_app, firstn_all2 by lia. rewrite Lh, Nat.sub_diag, firstn_O, app_nil_r. reflexivity.
  - rewrite Nat.min_r by lia. rewrite skipn_all2 by (rewrite (ek_h _ _ K); lia).
    unfold message_left, enc_message. rewrite (proj2 (N.leb_le _ _)) by lia. cbn [rbind].
    unfold e_moff, HEADER_SIZE. rewrite take_from_ok by (rewrite firstn_length; lia).
    rewrite (skipn_all2 (e_header e)) in W by (rewrite (ek_h _ _ K); lia). cbn [List.app] in W. rewrite (ek_h _ _ K) in W.
    now rewrite W.
Qed.

(** A flush writes a part of what is pending; while the header is pending, of the header only. *)
Lemma bflush_ok vs : forall e pend e' out r, eok e pend -> bflush vs e = (e', out, r) ->
  exists left, pend = out ++ left /\ eok e' left /\ length (e_buf e') = length (e_buf e) /\
    (e_pos e < 8 -> length out <= 8 - e_pos e) /\
    match r with Ok _ => True | Err y => exists k, y = BWrite k | Panic => False end.
Proof.
  induction vs as [|v vs IH]; intros e pend e' out r K F.
  - cbn [bflush] in F. destruct (write_ok e pend (WFail KWouldBlock) K) as (A & B).
    destruct pend as [|b p].
    + rewrite A in F by reflexivity. injection F as <- <- <-. exists []. cbn [length]. split; [reflexivity|]. split; [exact K|]. split; [reflexivity|]. split; [lia|exact I].
    + rewrite B in F by discriminate. injection F as <- <- <-. exists (b :: p). cbn [length]. split; [reflexivity|]. split; [exact K|]. split; [reflexivity|]. split; [lia|exact I].
  - cbn [bflush] in F. destruct (write_ok e pend v K) as (A & B). destruct pend as [|b p].
    + rewrite A in F by (destruct v; reflexivity). injection F as <- <- <-. exists []. cbn [length]. split; [reflexivity|]. split; [exact K|]. split; [reflexivity|]. split; [lia|exact I].
    + specialize (B ltac:(discriminate)). destruct v as [k|k].
      * destruct B as (e1 & o & K1 & Eo & _ & _ & Bf & Wr).
        assert (Lo : e_pos e < 8 -> length o <= 8 - e_pos e).
        { intros L. unfold write_to_stdio in Wr. rewrite (exhausted_ok _ _ K), (slice_exact _ _ K) in Wr by discriminate.
          apply Nat.ltb_lt in L. rewrite L in Wr.
          destruct (enc_advance _ e) as [e2 [[]|x|]]; try discriminate Wr.
          destruct (exhausted e2); try discriminate Wr. assert (o = firstn k (firstn (8 - e_pos e) (b :: p))) as -> by congruence.
          rewrite !firstn_length. lia. }
        rewrite Wr in F. injection F as <- <- <-. exists (skipn (length o) (b :: p)).
        split; [rewrite Eo at 1; symmetry; apply firstn_skipn|]. split; [exact K1|]. split; [congruence|]. split; [exact Lo|exact I].
      * rewrite B in F.
        assert (St : forall r0, (e, [], r0) = (e', out, r) ->
          match r0 with Ok _ => True | Err y => exists k, y = BWrite k | Panic => False end ->
          exists left, b :: p = out ++ left /\ eok e' left /\ length (e_buf e') = length (e_buf e) /\
          (e_pos e < 8 -> length out <= 8 - e_pos e) /\
          match r with Ok _ => True | Err y => exists k, y = BWrite k | Panic => False end).
        { intros r0 Z Q. injection Z as <- <- <-. exists (b :: p). cbn [length]. split; [reflexivity|]. split; [exact K|]. split; [reflexivity|]. split; [lia|exact Q]. }
        destruct k; [exact (IH _ _ _ _ _ K F)|apply (St _ F); auto|apply (St _ F); eauto|apply (St _ F); eauto].
Qed.

Lemma bflush_loop_ok vs : forall e pend e' out r, eok e pend -> bflush_loop vs e = (e', out, r) ->
  exists left, pend = out ++ left /\ eok e' left /\ length (e_buf e') = length (e_buf e) /\
    match r with Some (Ok _) => left = [] | Some (Err y) => exists k, y = BWrite k | Some Panic => False | None => True end.
Proof.
  induction vs as [|v vs IH]; intros e pend e' out r K F; cbn [bflush_loop] in F; rewrite (exhausted_ok _ _ K) in F.
  - destruct pend as [|b p]; injection F as <- <- <-; [exists []|exists (b :: p)]; auto 10.
  - destruct pend as [|b p]; [injection F as <- <- <-; exists []; auto 10|].
    destruct (write_ok e (b :: p) v K) as (_ & B). specialize (B ltac:(discriminate)). destruct v as [k|k].
    + destruct B as (e1 & o & K1 & Eo & _ & _ & Bf & Wr). rewrite Wr in F.
      destruct (bflush_loop vs e1) as [[e2 o2] r2] eqn:F2. injection F as <- <- <-.
      destruct (IH _ _ _ _ _ K1 F2) as (l & P2 & K2 & L2 & Q2). exists l.
      split; [rewrite <- app_assoc, <- P2; rewrite Eo at 1; symmetry; apply firstn_skipn|].
      split; [exact K2|]. split; [congruence|exact Q2].
    + rewrite B in F. destruct k.
      1,2: destruct (bflush_loop vs e) as [[e2 o2] r2] eqn:F2; injection F as <- <- <-; exact (IH _ _ _ _ _ K F2).
      1,2: injection F as <- <- <-; exists (b :: p); split; [reflexivity|]; split; [exact K|]; split; [reflexivity|]; eauto.
Qed.

Lemma blocking_ok v e pend e' out r : eok e pend -> flush_blocking v e = (e', out, r) ->
  exists left, pend = out ++ left /\ eok e' left /\ length (e_buf e') = length (e_buf e) /\
    match r with Some (Ok _) => left = [] | Some (Err _) => True | Some Panic => False | None => True end.
Proof.
  intros K F. unfold flush_blocking in F. destruct (bflush (sv_first v) e) as [[e1 o1] r1] eqn:F1.
  destruct (bflush_ok _ _ _ _ _ _ K F1) as (l1 & P1 & K1 & L1 & _ & Q1).
  destruct r1 as [u|y|]; [|injection F as <- <- <-; exists l1; auto 10|destruct Q1].
  rewrite (exhausted_ok _ _ K1) in F. destruct l1 as [|b l1].
  - injection F as <- <- <-. exists []. auto 10.
  - destruct (sv_flags v); [|injection F as <- <- <-; exists (b :: l1); auto 10].
    destruct (bflush_loop (sv_block v) e1) as [[e2 o2] r2] eqn:F2. injection F as <- <- <-.
    destruct (bflush_loop_ok _ _ _ _ _ _ K1 F2) as (l2 & P2 & K2 & L2 & Q2). exists l2.
    split; [rewrite <- app_assoc, <- P2; exact P1|]. split; [exact K2|]. split; [congruence|].
    destruct r2 as [[u2|y|]|]; auto.
Qed.

(** What sending does: [pend] was pending; everything before the new message is written before it is put
    into the buffer, and of the new message at most the header is written. *)
Lemma send_ok v m b pend b' out put r : eok (b_enc b) pend -> length (e_buf (b_enc b)) = BBUF -> length m <= BBUF ->
  send_msg v m b = (b', out, put, r) ->
  b_dec b' = b_dec b /\ length (e_buf (b_enc b')) = BBUF /\ r <> Some Panic /\
  (if put then exists o left, out = pend ++ o /\ frame m = o ++ left /\ eok (b_enc b') left /\ length o <= 8 /\
                 (forall y, r = Some (Err y) -> exists k, y = BWrite k) /\ r <> None
   else (exists left, pend = out ++ left /\ eok (b_enc b') left) /\ forall u, r <> Some (Ok u)).
Proof.
  intros K Lb Lm F. unfold send_msg in F. destruct (flush_blocking v (b_enc b)) as [[e1 o1] r1] eqn:F1.
  destruct (blocking_ok _ _ _ _ _ _ K F1) as (l1 & P1 & K1 & L1 & Q1).
  destruct r1 as [[u|y|]|].
  - subst l1. rewrite (exhausted_ok _ _ K1) in F. rewrite app_nil_r in P1. subst o1.
    assert (BF : (N.of_nat BBUF < 2 ^ 64)%N) by (vm_compute; reflexivity).
    destruct (load_ok m e1 ltac:(lia) ltac:(lia)) as (e2 & Ld & K2 & L2). unfold load_message in Ld. rewrite Ld in F.
    assert (P0 : e_pos e2 = 0).
    { pose proof (pend_length _ _ K2) as Pl. rewrite frame_length in Pl.
      assert (message_len e2 = N.of_nat (length m)).
      { unfold restart_with in Ld. rewrite set_len_pos_ok in Ld by (rewrite ?splice_length; lia).
        injection Ld as <-. apply message_len_enc. lia. }
      pose proof (ek_p _ _ K2). lia. }
    destruct (bflush (sv_last v) e2) as [[e3 o3] r3] eqn:F3. injection F as <- <- <- <-.
    destruct (bflush_ok _ _ _ _ _ _ K2 F3) as (l3 & P3 & K3 & L3 & Hd & Q3). cbn [b_dec b_enc].
    split; [reflexivity|]. split; [congruence|]. split; [destruct r3; [discriminate|discriminate|destruct Q3]|].
    exists o3, l3. split; [reflexivity|]. split; [exact P3|]. split; [exact K3|]. split; [specialize (Hd ltac:(lia)); lia|].
    split; [|discriminate]. intros y Z. injection Z as ->. exact Q3.
  - injection F as <- <- <- <-. cbn [b_dec b_enc]. split; [reflexivity|]. split; [congruence|]. split; [discriminate|].
    split; [eauto|discriminate].
  - destruct Q1.
  - injection F as <- <- <- <-. cbn [b_dec b_enc]. split; [reflexivity|]. split; [congruence|]. split; [discriminate|].
    split; [eauto|discriminate].
Qed.

(** Writing does not change the announced length. *)
Lemma write_header e v e' o r : write_to_stdio e v = (e', o, r) -> e_header e' = e_header e.
Proof.
  unfold write_to_stdio. destruct (exhausted e) as [[]|x|]; try (intros Z; now injection Z as <- _ _).
  destruct (next_slice e) as [sl|x|]; destruct v as [k|k]; try (intros Z; now injection Z as <- _ _).
  unfold enc_advance, set_writing_position.
  destruct (negb (pos_in_buf _)); [intros Z; now injection Z as <- _ _|].
  destruct (negb (pos_in_msg _)); [intros Z; now injection Z as <- _ _|].
  destruct (exhausted _); intros Z; now injection Z as <- _ _.
Qed.
Lemma bflush_header vs : forall e e' o r, bflush vs e = (e', o, r) -> e_header e' = e_header e.
Proof.
  induction vs as [|v vs IH]; intros e e' o r F; cbn [bflush] in F.
  - destruct (write_to_stdio e (WFail KWouldBlock)) as [[e1 o1] r1] eqn:W. apply write_header in W. rewrite <- W.
    destruct r1 as [u|[| | | |[]]|]; injection F as <- _ _; reflexivity.
  - destruct (write_to_stdio e v) as [[e1 o1] r1] eqn:W. apply write_header in W. rewrite <- W.
    destruct r1 as [u|[| | | |[]]|]; try (injection F as <- _ _; reflexivity). exact (IH _ _ _ _ F).
Qed.
Lemma bflush_loop_header vs : forall e e' o r, bflush_loop vs e = (e', o, r) -> e_header e' = e_header e.
Proof.
  induction vs as [|v vs IH]; intros e e' o r F; cbn [bflush_loop] in F.
  - destruct (exhausted e) as [[]|x|]; injection F as <- _ _; reflexivity.
  - destruct (exhausted e) as [[]|x|]; try (injection F as <- _ _; reflexivity).
    destruct (write_to_stdio e v) as [[e1 o1] r1] eqn:W. apply write_header in W. rewrite <- W.
    destruct (bflush_loop vs e1) as [[e2 o2] r2] eqn:F2. apply IH in F2.
    destruct r1 as [u|[| | | |[]]|]; injection F as <- _ _; auto.
Qed.
Lemma send_len v m b pend b' out put r : eok (b_enc b) pend -> length (e_buf (b_enc b)) = BBUF -> length m <= BBUF ->
  send_msg v m b = (b', out, put, r) ->
  message_len (b_enc b') = if put then N.of_nat (length m) else message_len (b_enc b).
Proof.
  intros K Lb Lm F. unfold send_msg in F. destruct (flush_blocking v (b_enc b)) as [[e1 o1] r1] eqn:F1.
  assert (H1 : e_header e1 = e_header (b_enc b)).
  { unfold flush_blocking in F1. destruct (bflush (sv_first v) (b_enc b)) as [[e2 o2] r2] eqn:F2. apply bflush_header in F2.
    rewrite <- F2. destruct r2; try (injection F1 as <- _ _; reflexivity).
    destruct (exhausted e2) as [[]|x|]; try (injection F1 as <- _ _; reflexivity).
    destruct (sv_flags v); try (injection F1 as <- _ _; reflexivity).
    destruct (bflush_loop (sv_block v) e2) as [[e3 o3] r3] eqn:F3. apply bflush_loop_header in F3.
    injection F1 as <- _ _. exact F3. }
  destruct (blocking_ok _ _ _ _ _ _ K F1) as (l1 & P1 & K1 & L1 & Q1).
  assert (M1 : message_len e1 = message_len (b_enc b)) by (unfold message_len; now rewrite H1).
  destruct r1 as [[u|y|]|]; try (injection F as <- _ <- _; exact M1).
  subst l1. rewrite (exhausted_ok _ _ K1) in F.
  assert (BF : (N.of_nat BBUF < 2 ^ 64)%N) by (vm_compute; reflexivity).
  unfold restart_with in F. rewrite set_len_pos_ok in F by (rewrite ?splice_length; lia).
  set (e2 := {| e_buf := _; e_header := le_enc 8 _; e_pos := 0 |}) in F.
  destruct (bflush (sv_last v) e2) as [[e3 o3] r3] eqn:F3. injection F as <- _ <- _. cbn [b_enc].
  apply bflush_header in F3. unfold message_len. rewrite F3. apply (message_len_enc (e_buf e2) _ 0). lia.
Qed.

Lemma recv_msg_ok vs : forall d c src d' src' r, dok BBUF d c -> recv_msg vs d src = (d', src', r) ->
  exists data, src = data ++ src' /\ dok BBUF d' (c ++ data) /\
    match r with
    | Ok (Some m) => status_of BBUF (c ++ data) = Done m
    | Ok None => status_of BBUF (c ++ data) = Need
    | Err _ => True
    | Panic => False
    end /\ (status_of BBUF c <> Need -> data = []).
Proof.
  assert (Q : forall d c m, dok BBUF d c -> status_of BBUF c = Done m -> dec_message d = Ok (Some m)).
  { intros d c m K St. now rewrite (message_ok _ _ _ K), St. }
  induction vs as [|v vs IH]; intros d c src d' src' r K F; cbn [recv_msg] in F.
  - pose proof (read_ok BBUF d c (RFail KWouldBlock) src K) as R. destruct (status_of BBUF c) as [| |m] eqn:St.
    + rewrite R in F. injection F as <- <- <-. exists []. rewrite app_nil_r. auto.
    + rewrite R in F. injection F as <- <- <-. exists []. rewrite app_nil_r. auto.
    + rewrite R, (Q _ _ _ K St) in F. injection F as <- <- <-. exists []. rewrite app_nil_r. auto.
  - pose proof (read_ok BBUF d c v src K) as R. destruct (status_of BBUF c) as [| |m] eqn:St.
    + destruct v as [k|k].
      * cbv zeta in R. set (data := firstn (Nat.min k (missing c)) src) in *. destruct R as (d1 & K1 & R). rewrite R in F.
        assert (Es : src = data ++ skipn (length data) src).
        { unfold data. clear. generalize (Nat.min k (missing c)). intros n.
          rewrite <- (firstn_skipn n src) at 1. f_equal. rewrite firstn_length.
          destruct (Nat.le_ge_cases n (length src)) as [X|X]; [now rewrite Nat.min_l by exact X|].
          rewrite Nat.min_r by exact X. now rewrite !skipn_all2 by lia. }
        rewrite (message_ok _ _ _ K1) in F. exists data.
        destruct (status_of BBUF (c ++ data)) as [| |m] eqn:S1; injection F as <- <- <-; (split; [exact Es|]); (split; [exact K1|]); (split; [auto|]); intros X; now destruct X.
      * rewrite R in F. destruct k; [pose proof (IH _ _ _ _ _ _ K F) as Z; rewrite St in Z; exact Z| | |];
          injection F as <- <- <-; exists []; rewrite app_nil_r; auto.
    + destruct v; rewrite R in F; injection F as <- <- <-; exists []; rewrite app_nil_r; auto.
    + destruct v; rewrite R, (Q _ _ _ K St) in F; injection F as <- <- <-; exists []; rewrite app_nil_r; auto.
Qed.

(** ** Histories *)

(** The calls of a history, and those that returned successfully. *)
Definition calls (ops : list bop) : list bconfig := flat_map (fun o => match o with BSet c _ => [c] | _ => [] end) ops.
Fixpoint succeeded (ops : list bop) (rs : list (option (res (set_err bio_err) unit))) : list bconfig :=
  match ops, rs with
  | BSet c _ :: ops, Some (Ok _) :: rs => c :: succeeded ops rs
  | _ :: ops, _ :: rs => succeeded ops rs
  | _, _ => []
  end.
(** The bytes that came from the broker. *)
Definition arrived (ops : list bop) : bytes := concat (map (fun o => match o with BArrive l => l | _ => [] end) ops).
(** [a] is [b] with some elements left out. *)
Inductive sublist {A} : list A -> list A -> Prop :=
| sub_nil : sublist [] []
| sub_keep x a b : sublist a b -> sublist (x :: a) (x :: b)
| sub_drop x a b : sublist a b -> sublist a (x :: b).
Definition op_typed (o : bop) : Prop := match o with BSet c _ => typed c | _ => True end.
(** What a response says. *)
Definition says (m : bytes) : report := match read_response m with Some x => RResult x | None => RInvalid end.

Lemma sublist_refl {A} (l : list A) : sublist l l.
Proof. induction l; constructor; auto. Qed.
Lemma sublist_nil {A} (l : list A) : sublist [] l.
Proof. induction l; constructor; auto. Qed.
Lemma sublist_app {A} (a b c d : list A) : sublist a b -> sublist c d -> sublist (a ++ c) (b ++ d).
Proof. intros X Y. induction X; cbn [List.app]; [exact Y|constructor; assumption|constructor; assumption]. Qed.

Record binv (tot : bytes) (s : bstate) (pend c : bytes) : Prop := {
  bi_enc : eok (b_enc (bs_client s)) pend;
  bi_buf : length (e_buf (b_enc (bs_client s))) = BBUF;
  bi_out : bs_out s ++ pend = concat (map frame (bs_sent s));
  bi_last : pend = [] \/ exists pre l m, bs_sent s = l ++ [m] /\ frame m = pre ++ pend;
  bi_len : Forall (fun m => length m = 324) (bs_sent s);
  bi_msg : bs_sent s <> [] -> message_len (b_enc (bs_client s)) = 324%N;
  bi_dec : dok BBUF (b_dec (bs_client s)) c;
  bi_in : tot = c ++ bs_in s;
  bi_rep : Forall (fun r => exists m, c = frame m /\ length m <= BBUF /\ r = says m) (bs_reports s)
}.

Lemma done_frame d c m : dok BBUF d c -> status_of BBUF c = Done m -> c = frame m /\ length m <= BBUF.
Proof.
  intros K. unfold status_of. destruct (Nat.ltb_spec (length c) 8) as [L|L]; [discriminate|].
  destruct (N.ltb_spec (N.of_nat BBUF) (announced c)) as [X|X]; [discriminate|].
  destruct (N.eqb_spec (N.of_nat (length c - 8)) (announced c)) as [Y|Y]; [|discriminate].
  intros Z. assert (m = skipn 8 c) as -> by congruence. split; [|rewrite skipn_length; lia].
  unfold frame. rewrite skipn_length, Y. unfold announced.
  assert (L8 : length (firstn 8 c) = 8) by (rewrite firstn_length; lia).
  rewrite <- L8 at 1. rewrite le_enc_dec. symmetry. apply firstn_skipn.
Qed.
Lemma binv_start src : binv src (bstart src) [] [].
Proof.
  assert (Ee : b_enc bclient_new = {| e_buf := zeros BBUF; e_header := le_enc 8 0; e_pos := 8 |}).
  { unfold bclient_new. cbn [b_enc]. now rewrite from_buffer_ok. }
  constructor; cbn [bstart bs_client bs_in bs_out bs_sent bs_reports map concat]; auto.
  - rewrite Ee. apply eok_idle.
  - intros X. now destruct X.
  - pose proof (dok_new (zeros BBUF)) as K. rewrite zeros_length in K. exact K.
Qed.

Lemma app_split_eq (a b c d : bytes) : length a = length c -> a ++ b = c ++ d -> a = c /\ b = d.
Proof.
  revert c. induction a as [|x a IH]; intros [|y c] L E; try discriminate L; [auto|].
  cbn [List.app] in E. injection E as -> E. destruct (IH c) as (-> & ->); auto.
Qed.
Lemma frame_inj m m' r r' : length m <= 4096 -> length m' <= 4096 -> frame m ++ r = frame m' ++ r' -> m = m' /\ r = r'.
Proof.
  intros L L' E. unfold frame in E. rewrite <- !app_assoc in E.
  apply app_split_eq in E as (E1 & E2); [|now rewrite !le_enc_length].
  apply (f_equal le_dec) in E1. rewrite !le_dec_enc in E1.
  change (pow256 8) with (2 ^ 64)%N in E1. rewrite !N.mod_small in E1 by lia.
  now apply app_split_eq in E2; [|lia].
Qed.
Lemma says_response r : says (response r) = RResult r.
Proof. destruct r as [[]|]; reflexivity. Qed.

Section Client.
Context (utf8 : bytes -> bool).

Lemma step_inv tot s pend c o s' r : binv tot s pend c -> op_typed o -> bstep utf8 o s = (s', r) ->
  exists pend' data, binv (tot ++ match o with BArrive l => l | _ => [] end) s' pend' (c ++ data) /\ r <> Some Panic /\
    match o with
    | BSet g _ =>
        (bs_sent s' = bs_sent s /\ (forall u, r <> Some (Ok u)) \/
         bs_sent s' = bs_sent s ++ [wire g] /\
         exists o8 left, length o8 <= 8 /\ frame (wire g) = o8 ++ left /\ bs_out s' = concat (map frame (bs_sent s)) ++ o8 /\ pend' = left)
        /\ bs_in s' = bs_in s /\ bs_reports s' = bs_reports s
    | BPoll ws rs =>
        bs_sent s' = bs_sent s /\ (exists out e r', bflush ws (b_enc (bs_client s)) = (e, out, r') /\ bs_out s' = bs_out s ++ out) /\
        (r = Some (Ok tt) -> bs_reports s' = bs_reports s ++ match status_of BBUF (c ++ data) with Done m => [says m] | _ => [] end)
    | BArrive l => bs_sent s' = bs_sent s /\ bs_in s' = bs_in s ++ l
    end.
Proof.
  intros I T St. destruct o as [g v|ws rs|l]; cbn [bstep] in St.
  - rewrite app_nil_r. unfold mio_set_psk in St. rewrite (request_ok utf8 bio_err g T) in St.
    assert (Sm : forall x, (forall u, x <> Ok u) -> x <> Panic ->
      ({| bs_client := bs_client s; bs_in := bs_in s; bs_out := bs_out s ++ []; bs_sent := bs_sent s ++ []; bs_reports := bs_reports s |},
        Some x) = (s', r) -> exists pend' data : bytes, binv tot s' pend' (c ++ data) /\ r <> Some Panic /\
      ((bs_sent s' = bs_sent s /\ (forall u, r <> Some (Ok u)) \/
         bs_sent s' = bs_sent s ++ [wire g] /\
         exists o8 left, length o8 <= 8 /\ frame (wire g) = o8 ++ left /\ bs_out s' = concat (map frame (bs_sent s)) ++ o8 /\ pend' = left)
        /\ bs_in s' = bs_in s /\ bs_reports s' = bs_reports s)).
    { intros x X Y Z. injection Z as <- <-. exists pend, []. cbn [bs_in bs_reports bs_sent]. rewrite !app_nil_r. destruct s as [a b d e f].
      split; [exact I|]. split; [congruence|]. split; [left; split; [reflexivity|congruence]|auto]. }
    destruct (utf8 (g_iface g)); [|eapply Sm; [| |exact St]; discriminate].
    destruct (Nat.ltb_spec (length (g_iface g)) 256) as [L|L]; [|eapply Sm; [| |exact St]; discriminate].
    clear Sm. pose proof (wire_length g T L) as Lw.
    destruct (send_msg v (wire g) (bs_client s)) as [[[b out] put] r0] eqn:Sd.
    assert (Lb : length (wire g) <= BBUF) by (rewrite Lw; apply Nat.leb_le; reflexivity).
    destruct (send_ok _ _ _ _ _ _ _ _ (bi_enc _ _ _ _ I) (bi_buf _ _ _ _ I) Lb Sd) as (Ed & Lb' & Np & Q).
    injection St as <- <-. cbn [bs_client bs_in bs_out bs_sent bs_reports]. destruct put.
    + destruct Q as (o8 & left & -> & Fr & K & L8 & Er & Nn). exists left, []. rewrite app_nil_r. split.
      { constructor; cbn [bs_client bs_in bs_out bs_sent bs_reports]; auto.
        - rewrite map_app, concat_app. cbn [map concat]. rewrite app_nil_r, Fr, !app_assoc.
          now rewrite (bi_out _ _ _ _ I).
        - right. exists o8, (bs_sent s), (wire g). auto.
        - apply Forall_app. split; [exact (bi_len _ _ _ _ I)|auto].
        - intros _. rewrite (send_len _ _ _ _ _ _ _ _ (bi_enc _ _ _ _ I) (bi_buf _ _ _ _ I) Lb Sd), Lw. reflexivity.
        - rewrite Ed. exact (bi_dec _ _ _ _ I).
        - exact (bi_in _ _ _ _ I).
        - exact (bi_rep _ _ _ _ I). }
      split; [destruct r0 as [[u|x|]|]; cbn; try discriminate; now destruct Np|].
      split; [|auto]. right. split; [reflexivity|]. exists o8, left. split; [exact L8|]. split; [exact Fr|].
      split; [|reflexivity]. rewrite app_assoc. now rewrite (bi_out _ _ _ _ I).
    + destruct Q as ((left & Ep & K) & Nok). exists left, []. rewrite !app_nil_r. split.
      { constructor; cbn [bs_client bs_in bs_out bs_sent bs_reports]; auto.
        - rewrite <- app_assoc, <- Ep. exact (bi_out _ _ _ _ I).
        - destruct (bi_last _ _ _ _ I) as [Z|(pre & l & m & Z & Fr)].
          + rewrite Z in Ep. symmetry in Ep. apply app_eq_nil in Ep as (_ & ->). now left.
          + right. exists (pre ++ out), l, m. split; [exact Z|]. now rewrite <- app_assoc, <- Ep.
        - exact (bi_len _ _ _ _ I).
        - rewrite (send_len _ _ _ _ _ _ _ _ (bi_enc _ _ _ _ I) (bi_buf _ _ _ _ I) Lb Sd). exact (bi_msg _ _ _ _ I).
        - rewrite Ed. exact (bi_dec _ _ _ _ I).
        - exact (bi_in _ _ _ _ I).
        - exact (bi_rep _ _ _ _ I). }
      split; [destruct r0 as [[u|x|]|]; cbn; try discriminate; now destruct Np|].
      split; [|auto]. left. split; [reflexivity|]. intros u Z. destruct r0 as [[u0|x|]|]; cbn in Z; try discriminate.
      now apply (Nok u0).
  - rewrite app_nil_r. destruct (bpoll ws rs (bs_client s) (bs_in s)) as [[[b src] out] r0] eqn:Bp.
    injection St as <- <-. cbn [bs_client bs_in bs_out bs_sent bs_reports]. unfold bpoll in Bp.
    destruct (bflush ws (b_enc (bs_client s))) as [[e o1] r1] eqn:F1.
    destruct (bflush_ok _ _ _ _ _ _ (bi_enc _ _ _ _ I) F1) as (left & Ep & K & Lb & _ & Q1).
    assert (La : left = [] \/ exists pre l m, bs_sent s = l ++ [m] /\ frame m = pre ++ left).
    { destruct (bi_last _ _ _ _ I) as [Z|(pre & l & m & Z & Fr)].
      + rewrite Z in Ep. symmetry in Ep. apply app_eq_nil in Ep as (_ & ->). now left.
      + right. exists (pre ++ o1), l, m. split; [exact Z|]. now rewrite <- app_assoc, <- Ep. }
    destruct r1 as [u|x|]; [|injection Bp as <- <- <- <-|destruct Q1].
    + destruct (recv_msg rs (b_dec (bs_client s)) (bs_in s)) as [[d src1] r2] eqn:Rc. injection Bp as <- <- <- <-.
      destruct (recv_msg_ok _ _ _ _ _ _ _ (bi_dec _ _ _ _ I) Rc) as (data & Es & Kd & Q2 & Ne). exists left, data.
      assert (Rp : Forall (fun r => exists m, c ++ data = frame m /\ length m <= BBUF /\ r = says m) (bs_reports s)).
      { pose proof (bi_rep _ _ _ _ I) as Rp. destruct (bs_reports s) as [|r' reps]; [constructor|].
        rewrite (Ne). { rewrite app_nil_r. exact Rp. }
        inversion Rp as [|? ? (m & Em & Lm & _)]. subst. rewrite (frame_status m (frame m) [] BBUF); [discriminate| |exact Lm|now rewrite app_nil_r].
        assert (BF : (N.of_nat BBUF < 2 ^ 64)%N) by (vm_compute; reflexivity). lia. }
      split.
      { constructor; cbn [bs_client bs_in bs_out bs_sent bs_reports b_enc b_dec]; auto.
        - rewrite Lb. exact (bi_buf _ _ _ _ I).
        - rewrite <- app_assoc, <- Ep. exact (bi_out _ _ _ _ I).
        - exact (bi_len _ _ _ _ I).
        - unfold message_len. rewrite (bflush_header _ _ _ _ _ F1). exact (bi_msg _ _ _ _ I).
        - rewrite <- app_assoc, <- Es. exact (bi_in _ _ _ _ I).
        - apply Forall_app. split; [exact Rp|]. destruct r2 as [[m|]|x|]; try constructor.
          destruct (done_frame _ _ _ Kd Q2) as (Fr & Lm). fold (says m).
          destruct (says m) eqn:Sy; constructor; try constructor; exists m; auto. }
      split; [destruct r2 as [[m|]|x|]; try discriminate; [destruct (read_response m); discriminate|destruct Q2]|].
      split; [reflexivity|]. split; [exists o1, e, (Ok u); auto|].
      intros Z. destruct r2 as [[m|]|x|]; try discriminate Z.
      * rewrite Q2. f_equal. unfold says. destruct (read_response m); reflexivity.
      * now rewrite Q2.
    + exists left, []. rewrite !app_nil_r. split.
      { constructor; cbn [bs_client bs_in bs_out bs_sent bs_reports b_enc b_dec]; auto.
        - rewrite Lb. exact (bi_buf _ _ _ _ I).
        - rewrite <- app_assoc, <- Ep. exact (bi_out _ _ _ _ I).
        - exact (bi_len _ _ _ _ I).
        - unfold message_len. rewrite (bflush_header _ _ _ _ _ F1). exact (bi_msg _ _ _ _ I).
        - exact (bi_dec _ _ _ _ I).
        - exact (bi_in _ _ _ _ I).
        - exact (bi_rep _ _ _ _ I). }
      split; [discriminate|]. split; [reflexivity|]. split; [|discriminate]. exists o1, e, (Err x). auto.
  - injection St as <- <-. exists pend, []. rewrite app_nil_r. cbn [bs_sent bs_in]. split; [|split; [discriminate|auto]].
    constructor; cbn [bs_client bs_in bs_out bs_sent bs_reports]; try apply I.
    rewrite (bi_in _ _ _ _ I). now rewrite <- app_assoc.
Qed.

Lemma steps_inv ops : forall tot s pend c s' rs, Forall op_typed ops -> binv tot s pend c -> bsteps utf8 ops s = (s', rs) ->
  exists done pend' data, (exists later, ops = done ++ later) /\ binv (tot ++ arrived done) s' pend' (c ++ data) /\
    (~ In None rs -> done = ops) /\ ~ In (Some Panic) rs /\
    exists cs, bs_sent s' = bs_sent s ++ map wire cs /\ sublist (succeeded ops rs) cs /\ sublist cs (calls ops).
Proof.
  induction ops as [|o ops IH]; intros tot s pend c s' rs T I B; cbn [bsteps] in B.
  - injection B as <- <-. exists [], pend, []. cbn [arrived map concat]. rewrite !app_nil_r.
    split; [exists []; reflexivity|]. split; [exact I|]. split; [reflexivity|]. split; [intros []|].
    exists []. rewrite app_nil_r. split; [reflexivity|]. split; constructor.
  - inversion T as [|? ? To Tl]. subst. destruct (bstep utf8 o s) as [s1 r] eqn:St.
    destruct (step_inv _ _ _ _ _ _ _ I To St) as (pend1 & data1 & I1 & Np & Q).
    assert (C1 : exists cs1, bs_sent s1 = bs_sent s ++ map wire cs1 /\
      sublist (match o, r with BSet g _, Some (Ok _) => [g] | _, _ => [] end) cs1 /\
      sublist cs1 (match o with BSet g _ => [g] | _ => [] end)).
    { destruct o as [g v|ws rs'|l].
      - destruct Q as ([(-> & No)|(-> & _)] & _).
        + exists []. rewrite app_nil_r. split; [reflexivity|]. split; [|apply sublist_nil].
          destruct r as [[u|x|]|]; try constructor. now destruct (No u).
        + exists [g]. split; [reflexivity|]. split; [|apply sublist_refl]. destruct r as [[u|x|]|]; repeat constructor.
      - exists []. destruct Q as (-> & _). rewrite app_nil_r. split; [reflexivity|]. split; [destruct r as [[]|]|]; constructor.
      - exists []. destruct Q as (-> & _). rewrite app_nil_r. split; [reflexivity|]. split; [destruct r as [[]|]|]; constructor. }
    destruct C1 as (cs1 & E1 & S1 & S2).
    assert (Sc : forall rs, succeeded (o :: ops) (r :: rs) =
       (match o, r with BSet g _, Some (Ok _) => [g] | _, _ => [] end) ++ succeeded ops rs).
    { intros rs0. cbn [succeeded]. destruct o as [g v|ws rs'|l]; destruct r as [[u|x|]|]; reflexivity. }
    assert (Ar : forall d, arrived (o :: d) = match o with BArrive l => l | _ => [] end ++ arrived d) by reflexivity.
    change (calls (o :: ops)) with (match o with BSet g _ => [g] | _ => [] end ++ calls ops).
    destruct r as [r|].
    + destruct (bsteps utf8 ops s1) as [s2 rs2] eqn:Bs. injection B as <- <-.
      destruct (IH _ _ _ _ _ _ Tl I1 Bs) as (done & pend2 & data2 & (later & El) & I2 & Cm & Np2 & (cs & E2 & S3 & S4)).
      exists (o :: done), pend2, (data1 ++ data2). split; [exists later; cbn [List.app]; now rewrite <- El|].
      rewrite Ar, !app_assoc. split; [exact I2|].
      split; [intros N; f_equal; apply Cm; intros X; apply N; now right|].
      split; [intros [X|X]; [now apply Np|now apply Np2]|].
      exists (cs1 ++ cs). rewrite map_app, app_assoc, <- E1. split; [exact E2|]. rewrite Sc.
      split; now apply sublist_app.
    + injection B as <- <-. exists [o], pend1, data1. split; [exists ops; reflexivity|]. rewrite Ar.
      cbn [arrived map concat]. rewrite app_nil_r. split; [exact I1|]. split; [intros N; destruct N; now left|].
      split; [intros [X|[]]; discriminate X|]. exists cs1. split; [exact E1|]. rewrite Sc. split.
      * rewrite <- (app_nil_r cs1). apply sublist_app; [exact S1|]. destruct ops as [|[]]; constructor.
      * rewrite <- (app_nil_r cs1). apply sublist_app; [exact S2|apply sublist_nil].
Qed.

(** ** C39 *)

(** Whatever the history, what the client has written is a prefix of the framed requests of calls in
    the order of the calls, among them all calls that succeeded; and nothing panics. *)
Theorem C39_written_in_order : forall ops src s rs, Forall op_typed ops -> bsteps utf8 ops (bstart src) = (s, rs) ->
  ~ In (Some Panic) rs /\
  exists cs, sublist (succeeded ops rs) cs /\ sublist cs (calls ops) /\
    exists later, bs_out s ++ later = concat (map (fun c => frame (wire c)) cs) /\ length later <= 332.
Proof.
  intros ops src s rs T B.
  destruct (steps_inv _ _ _ _ _ _ _ T (binv_start src) B) as (done & pend & data & _ & I & _ & Np & cs & E & S1 & S2).
  split; [exact Np|]. exists cs. split; [exact S1|]. split; [exact S2|]. exists pend. cbn [bstart bs_sent List.app] in E.
  split; [rewrite (bi_out _ _ _ _ I), E, map_map; reflexivity|].
  destruct (bi_last _ _ _ _ I) as [->|(pre & l & m & Z & Fr)]; [cbn; lia|].
  pose proof (bi_len _ _ _ _ I) as Ln. rewrite Z in Ln. apply Forall_app in Ln as (_ & Ln). inversion Ln as [|? ? Lm _]; subst.
  apply (f_equal (@length byte)) in Fr. rewrite frame_length, app_length in Fr. lia.
Qed.

(** All the client ever reports is the first response: the bytes that came begin with it.  Missing:
    later responses, see [C39_later_refuted]. *)
Theorem C39_first_partial : forall ops src s rs, Forall op_typed ops -> bsteps utf8 ops (bstart src) = (s, rs) ->
  Forall (fun r => exists m rest, src ++ arrived ops = frame m ++ rest /\ length m <= 4096 /\ r = says m) (bs_reports s).
Proof.
  intros ops src s rs T B.
  destruct (steps_inv _ _ _ _ _ _ _ T (binv_start src) B) as (done & pend & data & (later & El) & I & _).
  pose proof (bi_rep _ _ _ _ I) as R. cbn [List.app] in *. rewrite Forall_forall in *.
  intros r X. destruct (R r X) as (m & Em & Lm & Er). exists m, (bs_in s ++ arrived later). split; [|split; [exact Lm|exact Er]].
  rewrite El. unfold arrived. rewrite map_app, concat_app. fold (arrived done) (arrived later).
  now rewrite !app_assoc, (bi_in _ _ _ _ I), Em.
Qed.

(** When two responses have come, only the first is ever reported: a second, different one (for
    example that the peer does not exist) never is. *)
Theorem C39_later_refuted : forall ops src s rs r1 r2 rest, Forall op_typed ops ->
  bsteps utf8 ops (bstart src) = (s, rs) ->
  src ++ arrived ops = frame (response r1) ++ frame (response r2) ++ rest -> r1 <> r2 ->
  ~ In (RResult r2) (bs_reports s).
Proof.
  intros ops src s rs r1 r2 rest T B A N X. pose proof (C39_first_partial _ _ _ _ T B) as F.
  rewrite Forall_forall in F. destruct (F _ X) as (m & rest' & E & Lm & Sm). rewrite A in E.
  apply frame_inj in E as (<- & _); [|cbn; lia|exact Lm]. rewrite says_response in Sm. congruence.
Qed.

(** And once it has been reported, every further poll reports it again and reads nothing. *)
Theorem C39_repeated_refuted : forall ops src s rs ws rds s' r, Forall op_typed ops ->
  bsteps utf8 ops (bstart src) = (s, rs) -> In (RResult r) (bs_reports s) ->
  bstep utf8 (BPoll ws rds) s = (s', Some (Ok tt)) ->
  bs_reports s' = bs_reports s ++ [RResult r] /\ bs_in s' = bs_in s.
Proof.
  intros ops src s rs ws rds s' r T B X St.
  destruct (steps_inv _ _ _ _ _ _ _ T (binv_start src) B) as (done & pend & data & _ & I & _). cbn [List.app] in I.
  pose proof (bi_rep _ _ _ _ I) as R. rewrite Forall_forall in R. destruct (R _ X) as (m & Em & Lm & Sm).
  assert (BF : (N.of_nat BBUF < 2 ^ 64)%N) by (vm_compute; reflexivity).
  assert (Sd : status_of BBUF data = Done m).
  { rewrite (frame_status m data [] BBUF); [reflexivity|lia|exact Lm|now rewrite app_nil_r]. }
  destruct (step_inv _ _ _ _ (BPoll ws rds) s' _ I Logic.I St) as (pend' & data' & I' & _ & _ & _ & Q).
  assert (data' = [] /\ bs_in s' = bs_in s) as (-> & Ei).
  { cbn [bstep] in St. destruct (bpoll ws rds (bs_client s) (bs_in s)) as [[[b src1] out] r0] eqn:Bp.
    unfold bpoll in Bp. destruct (bflush ws (b_enc (bs_client s))) as [[e o1] r1].
    destruct (recv_msg rds (b_dec (bs_client s)) (bs_in s)) as [[d src2] r2] eqn:Rc.
    destruct (recv_msg_ok _ _ _ _ _ _ _ (bi_dec _ _ _ _ I) Rc) as (d2 & Es & _ & _ & Ne).
    rewrite Ne in Es by (rewrite Sd; discriminate). cbn [List.app] in Es.
    assert (Ei : bs_in s' = bs_in s).
    { injection St as <- _. cbn [bs_in]. destruct r1; injection Bp as _ <- _ _; auto. }
    split; [|exact Ei]. pose proof (bi_in _ _ _ _ I') as T1. pose proof (bi_in _ _ _ _ I) as T2.
    rewrite app_nil_r, T2, Ei, <- app_assoc in T1.
    apply (f_equal (@length byte)) in T1. rewrite !app_length in T1. destruct data'; [reflexivity|cbn [length] in T1; lia]. }
  split; [|exact Ei]. rewrite (Q eq_refl), app_nil_r, Sd, <- Sm. reflexivity.
Qed.


Lemma poll_reads tot s pend c m l rest ws k rds s' : binv tot s pend c -> length m <= 4096 -> l <> [] ->
  frame m = c ++ l -> bs_in s = l ++ rest -> missing c <= k ->
  bstep utf8 (BPoll ws (Give k :: rds)) s = (s', Some (Ok tt)) ->
  exists pend', binv tot s' pend' (c ++ firstn (missing c) l) /\ bs_in s' = skipn (missing c) l ++ rest /\
    bs_reports s' = bs_reports s ++ match skipn (missing c) l with [] => [says m] | _ => [] end.
Proof.
  intros I Lm Nl Fr Ei Hk St. assert (BF : (N.of_nat (length m) < 2 ^ 64)%N) by lia.
  destruct (step_inv _ _ _ _ (BPoll ws (Give k :: rds)) s' _ I Logic.I St) as (pend' & data & I' & _ & _ & _ & Q).
  specialize (Q eq_refl). rewrite app_nil_r in I'.
  pose proof (frame_missing _ _ _ BF Fr) as Ml.
  assert (St0 : status_of BBUF c = Need).
  { rewrite (frame_status m c l BBUF BF); [destruct l; [now destruct Nl|reflexivity]|exact Lm|exact Fr]. }
  assert (Ei' : bs_in s' = skipn (missing c) l ++ rest).
  { cbn [bstep] in St. destruct (bpoll ws (Give k :: rds) (bs_client s) (bs_in s)) as [[[b src1] out] r0] eqn:Bp.
    unfold bpoll in Bp. destruct (bflush ws (b_enc (bs_client s))) as [[e o1] r1].
    pose proof (read_ok BBUF _ _ (Give k) (bs_in s) (bi_dec _ _ _ _ I)) as R. rewrite St0 in R. cbv zeta in R.
    rewrite Nat.min_r in R by exact Hk. destruct R as (d1 & K1 & R).
    cbn [recv_msg] in Bp. rewrite R in Bp.
    assert (Sk : skipn (length (firstn (missing c) (bs_in s))) (bs_in s) = skipn (missing c) l ++ rest).
    { rewrite Ei, firstn_length, app_length, Nat.min_l by lia. rewrite skipn_app.
      replace (missing c - length l) with 0 by lia. reflexivity. }
    rewrite Sk in Bp. injection St as <- Hr. cbn [bs_in].
    destruct r1 as [u|x|]; [|injection Bp as _ _ _ <-; discriminate Hr|injection Bp as _ _ _ <-; discriminate Hr].
    rewrite (message_ok _ _ _ K1) in Bp.
    destruct (status_of BBUF (c ++ firstn (missing c) (bs_in s))); injection Bp as _ <- _ _; reflexivity. }
  assert (data = firstn (missing c) l) as ->.
  { pose proof (bi_in _ _ _ _ I') as T1. pose proof (bi_in _ _ _ _ I) as T2. rewrite T2, Ei, Ei', <- app_assoc in T1.
    apply app_inv_head in T1. rewrite <- (firstn_skipn (missing c) l) in T1 at 1. rewrite <- app_assoc in T1.
    symmetry. eapply app_inv_tail. exact T1. }
  exists pend'. split; [exact I'|]. split; [exact Ei'|]. rewrite Q. f_equal.
  rewrite (frame_status m _ (skipn (missing c) l) BBUF BF).
  - destruct (skipn (missing c) l); reflexivity.
  - exact Lm.
  - rewrite <- app_assoc, firstn_skipn. exact Fr.
Qed.

(** Nothing of a response has been read yet: the second poll reports it, if each poll is given the bytes it
    asks for (header, then contents) and can write.  The first poll reports nothing. *)
Theorem C39_reported_partial : forall ops src s rs r rest w1 k1 rd1 w2 k2 rd2 s1 s2, Forall op_typed ops ->
  bsteps utf8 ops (bstart src) = (s, rs) -> ~ In None rs ->
  src ++ arrived ops = bs_in s -> bs_in s = frame (response r) ++ rest ->
  8 <= k1 -> 5 <= k2 ->
  bstep utf8 (BPoll w1 (Give k1 :: rd1)) s = (s1, Some (Ok tt)) ->
  bstep utf8 (BPoll w2 (Give k2 :: rd2)) s1 = (s2, Some (Ok tt)) ->
  bs_reports s1 = [] /\ bs_reports s2 = [RResult r] /\ bs_in s2 = rest.
Proof.
  intros ops src s rs r rest w1 k1 rd1 w2 k2 rd2 s1 s2 T B Nn A Ei H1 H2 P1 P2.
  destruct (steps_inv _ _ _ _ _ _ _ T (binv_start src) B) as (done & pend & data & _ & I & Dn & _). cbn [List.app] in I.
  rewrite (Dn Nn), A in I.
  assert (data = []) as ->.
  { pose proof (bi_in _ _ _ _ I) as T1. apply (f_equal (@length byte)) in T1. rewrite app_length in T1.
    destruct data; [reflexivity|cbn [length] in T1; lia]. }
  assert (Rp : bs_reports s = []).
  { pose proof (bi_rep _ _ _ _ I) as R. destruct (bs_reports s); [reflexivity|]. inversion R as [|? ? (m & Em & _)].
    apply (f_equal (@length byte)) in Em. rewrite frame_length in Em. discriminate Em. }
  assert (Fr : frame (response r) = [] ++ frame (response r)) by reflexivity.
  assert (Lr : length (response r) <= 4096) by (cbn; lia).
  assert (Nf : frame (response r) <> []) by discriminate.
  destruct (poll_reads _ _ _ _ _ _ _ _ _ _ _ I Lr Nf Fr Ei H1 P1) as (pend1 & I1 & Ei1 & R1).
  change (missing []) with 8 in *. cbn [List.app] in I1.
  assert (Fr1 : frame (response r) = firstn 8 (frame (response r)) ++ skipn 8 (frame (response r))) by (symmetry; apply firstn_skipn).
  assert (M1 : missing (firstn 8 (frame (response r))) = 5) by reflexivity.
  assert (Nf1 : skipn 8 (frame (response r)) <> []) by discriminate.
  rewrite <- M1 in H2.
  destruct (poll_reads _ _ _ _ _ _ _ _ _ _ _ I1 Lr Nf1 Fr1 Ei1 H2 P2) as (pend2 & I2 & Ei2 & R2).
  rewrite M1 in *. rewrite R1 in R2. rewrite Rp in *. split; [exact R1|]. split; [|exact Ei2].
  rewrite R2. change (skipn 5 (skipn 8 (frame (response r)))) with (@nil byte). now rewrite says_response.
Qed.

(** ** C67 *)

(** Full property: when [set_psk] returns successfully, the request has been written to the broker.
    It never has been: all earlier requests are completely written, but of this one at most the 8 bytes of
    the header, whatever the socket would take. *)
Theorem C67_call_refuted : forall ops src s rs g v s', Forall op_typed ops -> typed g ->
  bsteps utf8 ops (bstart src) = (s, rs) -> bstep utf8 (BSet g v) s = (s', Some (Ok tt)) ->
  bs_sent s' = bs_sent s ++ [wire g] /\
  exists h, h <= 8 /\ bs_out s' = concat (map frame (bs_sent s)) ++ firstn h (frame (wire g)).
Proof.
  intros ops src s rs g v s' T Tg B St.
  destruct (steps_inv _ _ _ _ _ _ _ T (binv_start src) B) as (done & pend & data & _ & I & _).
  destruct (step_inv _ _ _ _ (BSet g v) s' _ I Tg St) as (pend' & data' & I' & _ & Q & _).
  destruct Q as [(_ & No)|(Es & o8 & left & L8 & Fr & Eo & _)]; [now destruct (No tt)|].
  split; [exact Es|]. exists (length o8). split; [exact L8|]. rewrite Eo, Fr. f_equal.
  rewrite firstn_app, Nat.sub_diag, firstn_O, firstn_all, app_nil_r. reflexivity.
Qed.

Corollary C67_refuted : forall ops src s rs g v s', Forall op_typed ops -> typed g ->
  bsteps utf8 ops (bstart src) = (s, rs) -> bstep utf8 (BSet g v) s = (s', Some (Ok tt)) ->
  bs_out s' <> concat (map frame (bs_sent s')).
Proof.
  intros ops src s rs g v s' T Tg B St E. destruct (C67_call_refuted _ _ _ _ _ _ _ T Tg B St) as (Es & h & Hh & Eo).
  rewrite Eo, Es, map_app, concat_app in E. apply app_inv_head in E. cbn [map concat] in E. rewrite app_nil_r in E.
  apply (f_equal (@length byte)) in E. rewrite firstn_length, frame_length in E.
  unfold wire in E. rewrite !app_length in E. cbn [length] in E. destruct Tg as (A1 & A2). rewrite A1, A2 in E. lia.
Qed.

Lemma poll_writes tot s pend c k ws rds s' r : binv tot s pend c -> 324 <= k ->
  bstep utf8 (BPoll (Accept k :: ws) rds) s = (s', r) ->
  exists pend' data, binv tot s' pend' (c ++ data) /\ bs_sent s' = bs_sent s /\ length pend' <= 324 /\ (length pend <= 324 -> pend' = []).
Proof.
  intros I Hk St.
  destruct (step_inv _ _ _ _ (BPoll (Accept k :: ws) rds) s' _ I Logic.I St) as (pend' & data & I' & _ & Es & (out & e & r' & F & Eo) & _).
  rewrite app_nil_r in I'. exists pend', data. split; [exact I'|]. split; [exact Es|].
  assert (Ep : pend = out ++ pend').
  { pose proof (bi_out _ _ _ _ I) as T1. pose proof (bi_out _ _ _ _ I') as T2.
    rewrite Eo, Es, <- T1, <- app_assoc in T2. symmetry. eapply app_inv_head. exact T2. }
  pose proof (bi_enc _ _ _ _ I) as K.
  destruct pend as [|b p]; [destruct out; [destruct pend'; [split; [cbn; lia|auto]|discriminate Ep]|discriminate Ep]|].
  assert (Nn : bs_sent s <> []).
  { destruct (bi_last _ _ _ _ I) as [Z|(pre & l & m & Z & Fr)]; [discriminate Z|]. rewrite Z. intros X. symmetry in X. now apply app_cons_not_nil in X. }
  pose proof (pend_length _ _ K) as Pl. rewrite (bi_msg _ _ _ _ I Nn) in Pl.
  cbn [bflush] in F. unfold write_to_stdio in F. rewrite (exhausted_ok _ _ K), (slice_exact _ _ K) in F by discriminate.
  destruct (write_ok _ _ (Accept k) K) as (_ & W). destruct (W ltac:(discriminate)) as (e1 & o1 & _ & _ & _ & _ & _ & W1). clear W.
  unfold write_to_stdio in W1. rewrite (exhausted_ok _ _ K), (slice_exact _ _ K) in W1 by discriminate.
  rewrite W1 in F. assert (o1 = out) as -> by congruence. clear F.
  assert (Eout : out = firstn k (if Nat.ltb (e_pos (b_enc (bs_client s))) 8 then firstn (8 - e_pos (b_enc (bs_client s))) (b :: p) else b :: p)).
  { destruct (enc_advance _ (b_enc (bs_client s))) as [e2 [[]|x|]]; try discriminate W1. destruct (exhausted e2); try discriminate W1. congruence. }
  set (pend := b :: p) in *. clearbody pend.
  assert (Lo : length out + length pend' = length pend) by (rewrite Ep; symmetry; apply app_length).
  destruct (Nat.ltb_spec (e_pos (b_enc (bs_client s))) 8) as [L|L].
  - assert (length out = 8 - e_pos (b_enc (bs_client s))) by (rewrite Eout, !firstn_length; lia). lia.
  - assert (length out = length pend) by (rewrite Eout, firstn_length; lia).
    assert (length pend' = 0) by lia. destruct pend'; [cbn; split; [lia|reflexivity]|discriminate].
Qed.

(** Two polls during each of which the socket takes a whole request write out everything. *)
Theorem C67_polls_partial : forall ops src s rs k1 w1 r1 k2 w2 r2 s1 x1 s2 x2, Forall op_typed ops ->
  bsteps utf8 ops (bstart src) = (s, rs) -> 324 <= k1 -> 324 <= k2 ->
  bstep utf8 (BPoll (Accept k1 :: w1) r1) s = (s1, x1) -> bstep utf8 (BPoll (Accept k2 :: w2) r2) s1 = (s2, x2) ->
  bs_out s2 = concat (map frame (bs_sent s)).
Proof.
  intros ops src s rs k1 w1 r1 k2 w2 r2 s1 x1 s2 x2 T B H1 H2 P1 P2.
  destruct (steps_inv _ _ _ _ _ _ _ T (binv_start src) B) as (done & pend & data & _ & I & _).
  destruct (poll_writes _ _ _ _ _ _ _ _ _ I H1 P1) as (pend1 & data1 & I1 & E1 & L1 & _).
  destruct (poll_writes _ _ _ _ _ _ _ _ _ I1 H2 P2) as (pend2 & data2 & I2 & E2 & _ & Z).
  rewrite (Z L1) in I2. rewrite <- E1, <- E2, <- (bi_out _ _ _ _ I2). now rewrite app_nil_r.
Qed.
End Client.
Print Assumptions C39_written_in_order.
Print Assumptions C39_first_partial.
Print Assumptions C39_later_refuted.
Print Assumptions C39_repeated_refuted.
Print Assumptions C39_reported_partial.
Print Assumptions C67_call_refuted.
Print Assumptions C67_refuted.
Print Assumptions C67_polls_partial.

(** * The hypotheses can be met *)

Module Example.
(** An interface named "wg0" with a peer. *)
Definition g : bconfig := {| g_iface := [x77; x67; x30]; g_peer := repeat x05 32; g_psk := repeat x09 32; g_extra := [] |}.
Definition any : bytes -> bool := fun _ => true.
Definition sv : send_ev := {| sv_first := [Accept 4000]; sv_flags := true; sv_block := [Accept 4000; Accept 4000]; sv_last := [WFail KInterrupted; Accept 4000] |}.
Definition ops : list bop :=
  [BSet g sv; BSet g sv; BArrive (frame (response None)); BArrive (frame (response (Some NoSuchPeer)));
   BPoll [Accept 4000] [Give 100]; BPoll [Accept 4000] [RFail KInterrupted; Give 100]; BPoll [] []; BPoll [] [Give 100]].

Lemma g_typed : typed g.
Proof. split; reflexivity. Qed.
Lemma ops_typed : Forall op_typed ops.
Proof. repeat constructor. Qed.

(** Two requests and their two responses; the first is reported three times, and the second response stays
    unread. *)
Example C39_nonvacuous : exists s, bsteps any ops (bstart []) = (s, repeat (Some (Ok tt)) 8) /\
  bs_reports s = [RResult None; RResult None; RResult None] /\ bs_in s = frame (response (Some NoSuchPeer)) /\
  length (bs_out s) = 2 * 332 /\ succeeded ops (repeat (Some (Ok tt)) 8) = [g; g].
Proof.
  eexists. split; [vm_compute; reflexivity|]. vm_compute. auto.
Qed.
(** The call of [C67_call_refuted]: the socket would take 4000 bytes, 8 are written. *)
Example C67_nonvacuous : exists s, bstep any (BSet g sv) (bstart []) = (s, Some (Ok tt)) /\ length (bs_out s) = 8.
Proof. eexists. split; vm_compute; reflexivity. Qed.

(** A kernel with that interface and peer: the key is set.  The request is valid, and one for an unknown peer is answered. *)
Definition kern : kernel := [([x77; x67; x30], [(repeat x05 32, repeat x00 32)])].
Definition stranger : bconfig := {| g_iface := [x77; x67; x30]; g_peer := repeat x06 32; g_psk := repeat x09 32; g_extra := [] |}.
Definition nl : bconfig -> kernel -> kernel * option nl_err := netlink_set_psk any true.

Example C38_nonvacuous : good any g /\ good any stranger /\
  privileged any nl nl_conv (frame (wire g) ++ frame (wire stranger)) kern =
    ([([x77; x67; x30], [(repeat x05 32, repeat x09 32)])],
     [Some (frame (response None)); Some (frame (response (Some NoSuchPeer)))], PEof).
Proof. split; [|split]; [repeat constructor|repeat constructor|vm_compute; reflexivity]. Qed.

Lemma g_valid : valid any (wire g).
Proof. exists g, (zeros 252). repeat constructor. Qed.
(** One empty message in the queue: the request after it is not served. *)
Example C40_nonvacuous :
  serve any nl nl_conv [(0, wire g); (1, []); (0, wire g)] kern =
    ([([x77; x67; x30], [(repeat x05 32, repeat x09 32)])], [(0, frame (response None))], false).
Proof. vm_compute. reflexivity. Qed.
End Example.
