(** Small vocabulary for the statements of the properties: what is visible on the wire and
    in the results of calls, by byte offsets rather than through the model's parsers. *)
From Verif Require Import Base ConstTime Prims HashDomains Wire Server Protocol Wp Inv Rules Calls PollRules System Trans.
From Coq Require Strings.String.
Import (notations) Coq.Strings.String.

(** The tree of hash domains (papers/whitepaper.md, section "Labels"): labels are hashed one
    after the other, starting from the all-zero key with the name of the protocol version. *)
Definition version_name (a : halg) : bytes :=
  match a with
  | Shake => str "Rosenpass v1 mceliece460896 Kyber512 ChaChaPoly1305 SHAKE256"%string
  | Blake => str "Rosenpass v1 mceliece460896 Kyber512 ChaChaPoly1305 BLAKE2s"%string
  end.
Definition hashed (P : prims) (a : halg) (k : bytes) (l : list bytes) : bytes :=
  fold_left (khash P a) l k.
Definition domain (P : prims) (a : halg) (labels : list String.string) : bytes :=
  hashed P a (zeros 32) (version_name a :: map str labels).

(** The message a call hands to the server. *)
Definition received (c : call) : option bytes :=
  match c_op c with
  | OMsg rx _ | OLoad rx _ _ => Some rx
  | _ => None
  end.

(** Message types (papers/whitepaper.md, table of messages; msgs.rs:18-27). *)
Definition is_type (b : byte) (rx : bytes) : Prop := nth_error rx 0 = Some b.

(** The call reported [exchanged_with = p]. *)
Definition exchanged (r : res err outcome) (p : nat) : Prop :=
  exists m, r = Ok (RHandled {| mr_exchanged := Some p; mr_resp := m |}).
(** The call returned a reply [m]. *)
Definition replied (r : res err outcome) (m : bytes) : Prop :=
  exists o, r = Ok (RHandled {| mr_exchanged := o; mr_resp := Some m |}).

(** InitConf on the wire: 4 bytes header, sidi, sidr, biscuit, tag, mac, cookie. *)
Definition conf_sidi (rx : bytes) : bytes := slice 4 4 rx.
Definition conf_sidr (rx : bytes) : bytes := slice 8 4 rx.
Definition conf_biscuit (rx : bytes) : bytes := slice 12 116 rx.
(** RespHello on the wire: header, sidr, sidi, ecti (768), scti (156), tag, biscuit. *)
Definition resp_sidr (m : bytes) : bytes := slice 4 4 m.
Definition resp_sidi (m : bytes) : bytes := slice 8 4 m.
Definition resp_biscuit (m : bytes) : bytes := slice 952 116 m.

(** The biscuit key a biscuit names by the top bit of its first byte. *)
Definition named_key (s : srv) (b : bytes) : bytes :=
  match b with
  | [] => cs_value (s_bk0 s)
  | h :: _ => if N.testbit (b2n h) 7 then cs_value (s_bk1 s) else cs_value (s_bk0 s)
  end.
(** Biscuit [b] for session ids [sidi], [sidr] opens to [pt] with key [k] at the server with
    public key [pk], in hash version [a]. *)
Definition biscuit_opens (P : prims) (a : halg) (pk k sidi sidr b pt : bytes) : Prop :=
  xdec P k (hashed P a (domain P a ["biscuit additional data"%string]) [pk; sidi; sidr]) b = Some pt.
Lemma biscuit_opens_ad P a pk k sidi sidr b pt :
  biscuit_opens P a pk k sidi sidr b pt <-> xdec P k (biscuit_ad P a pk sidi sidr) b = Some pt.
Proof. reflexivity. Qed.
(** The fields of an opened biscuit: peer id (32), number (12), chaining key (32). *)
Definition biscuit_peer (pt : bytes) : bytes := slice 0 32 pt.
Definition biscuit_number (pt : bytes) : N := le_dec (slice 32 12 pt).

(** * Facts used by the property files *)

Lemma first_type_of b rx : is_type b rx -> first_type rx = mt_of b.
Proof. unfold is_type. destruct rx; cbn; intros [= ->]. reflexivity. Qed.

Lemma is_type_of rx t : first_type rx = Some t -> is_type (mt_code t) rx.
Proof.
  unfold is_type. destruct rx as [|b l]; cbn; [discriminate|]. intros H. f_equal.
  revert H. destruct b; cbn; intros [= <-]; reflexivity.
Qed.

Lemma named_key_slot s b : named_key s b = cs_value (get_bk (nonce_slot b) s).
Proof. unfold named_key, nonce_slot, get_bk. destruct b; auto. now destruct (N.testbit _ _). Qed.

Lemma conf_parse rx :
  ic_sidi (parse_ic (env_payload IC_LEN rx)) = conf_sidi rx /\
  ic_sidr (parse_ic (env_payload IC_LEN rx)) = conf_sidr rx /\
  ic_biscuit (parse_ic (env_payload IC_LEN rx)) = conf_biscuit rx.
Proof.
  unfold parse_ic, env_payload, conf_sidi, conf_sidr, conf_biscuit, IC_LEN.
  cbn [ic_sidi ic_sidr ic_biscuit]. rewrite !slice_slice by lia. auto.
Qed.

Section WithPrims.
Context (P : prims).

(** An accepted InitConf, in terms of the above. *)
Lemma ic_accept_spec s rx a p x bno core :
  length rx = 176 ->
  ic_accept P s (parse_ic (env_payload IC_LEN rx)) a = inl (p, x, bno, core) ->
  exists pt, biscuit_opens P a (s_spkm s) (named_key s (conf_biscuit rx)) (conf_sidi rx)
               (conf_sidr rx) (conf_biscuit rx) pt /\
    bno = slice 32 12 pt /\ find_peer s (biscuit_peer pt) = Some p /\ pe s p = Some x /\
    (le_dec (p_biscuit_used x) < biscuit_number pt)%N.
Proof.
  intros L H. unfold ic_accept in H. destruct (conf_parse rx) as (E1 & E2 & E3).
  rewrite E1, E2, E3, <- named_key_slot in H.
  destruct (xdec _ _ _ _) as [pt|] eqn:D; [|discriminate]. exists pt. split; [exact D|].
  cbn [bi_pidi bi_no bi_ck parse_bi] in H.
  destruct (find_peer s _) as [q|] eqn:F; [|discriminate].
  destruct (pe s q) as [y|] eqn:Y; [|discriminate].
  destruct (handle_ic_ck _ _ _); [|discriminate].
  destruct (N.leb_spec (le_dec (slice 32 12 pt)) (le_dec (p_biscuit_used y))); [discriminate|].
  injection H as <- <- <- _. auto.
Qed.

(** Intermediate failures keep keys and counters. *)
Lemma ic_failed_rest s ic a s' : ic_failed P s ic a s' -> rest s' = rest s.
Proof. intros [[-> _]|(p & x & bno & core & q & _ & _ & _ & R)]; auto. apply R. Qed.

Lemma rest_key s s' b : rest s' = rest s -> named_key s' b = named_key s b.
Proof. unfold rest, named_key. intros [= _ _ _ -> -> _ _ _ _]. reflexivity. Qed.
Lemma rest_pk s s' : rest s' = rest s -> s_spkm s' = s_spkm s.
Proof. unfold rest. intros [=]. auto. Qed.

(** What [seal_and_commit_msg] writes before the cookie field. *)
Definition body (t : msg_type) (payload tx : bytes) : bytes :=
  mt_code t :: slice 1 3 tx ++ payload.

Lemma body_len t n payload tx : length payload = n -> 4 <= length tx ->
  length (body t payload tx) = 4 + n.
Proof. intros L T. unfold body. cbn [length]. rewrite app_length, slice_length by lia. lia. Qed.

Lemma commit_upto_cookie x t n payload tx :
  length payload = n -> n + 36 <= length tx ->
  firstn (20 + n) (commit_msg P x t n payload tx) =
  body t payload tx ++ mac_of P (p_alg x) (p_spkt x) (body t payload tx).
Proof.
  intros L T. unfold commit_msg, seal.
  set (b := body t payload tx).
  assert (length b = 4 + n) as Lb by (apply body_len; lia).
  assert (mt_code t :: slice 1 3 tx ++ payload ++ env_mac n tx ++ env_cookie n tx
          = b ++ env_mac n tx ++ env_cookie n tx) as E.
  { unfold b, body. cbn [app]. now rewrite <- !app_assoc. }
  rewrite E.
  assert (forall tl, env_upto_mac n (b ++ tl) = b) as EM.
  { intros tl. unfold env_upto_mac. rewrite firstn_app, Lb, Nat.sub_diag, firstn_O, app_nil_r.
    apply firstn_all2. lia. }
  rewrite EM.
  set (m := mac_of P (p_alg x) (p_spkt x) b).
  assert (length m = 16) as Lm by apply mac_of_len.
  assert (forall tl, firstn (20 + n) (b ++ m ++ tl) = b ++ m) as K.
  { intros tl. rewrite app_assoc, firstn_app, app_length, Lb, Lm.
    replace (20 + n - (4 + n + 16)) with 0 by lia. rewrite firstn_O, app_nil_r.
    apply firstn_all2. rewrite app_length. lia. }
  unfold seal_cookie. destruct (p_handshake x); [|apply K].
  unfold env_upto_cookie at 1. rewrite K, <- app_assoc. apply K.
Qed.

Lemma commit_upto_mac x t n payload tx :
  length payload = n -> n + 36 <= length tx ->
  firstn (4 + n) (commit_msg P x t n payload tx) = body t payload tx.
Proof.
  intros L T. pose proof (commit_upto_cookie x t n payload tx L T) as E.
  replace (4 + n) with (Nat.min (4 + n) (20 + n)) by lia. rewrite <- firstn_firstn, E.
  rewrite firstn_app, body_len with (n := n), Nat.sub_diag, firstn_O, app_nil_r by lia. apply firstn_all2. rewrite body_len with (n := n); lia.
Qed.

Lemma commit_slice x t n payload tx o k :
  length payload = n -> n + 36 <= length tx -> o + k <= n ->
  slice (4 + o) k (commit_msg P x t n payload tx) = slice o k payload.
Proof.
  intros L T B.
  assert (slice (4 + o) k (commit_msg P x t n payload tx) =
          slice (4 + o) k (firstn (4 + n) (commit_msg P x t n payload tx))) as ->.
  { unfold slice. rewrite skipn_firstn_comm, firstn_firstn. now rewrite Nat.min_l by lia. }
  rewrite (commit_upto_mac x t n payload tx L T). unfold body.
  change (mt_code t :: slice 1 3 tx ++ payload) with ((mt_code t :: slice 1 3 tx) ++ payload).
  assert (length (mt_code t :: slice 1 3 tx) = 4) as L4.
  { cbn [length]. rewrite slice_length by lia. reflexivity. }
  rewrite slice_skip by lia. rewrite L4. f_equal. lia.
Qed.

Lemma commit_type x t n payload tx :
  length payload = n -> n + 36 <= length tx ->
  is_type (mt_code t) (commit_msg P x t n payload tx).
Proof.
  intros L T. pose proof (commit_upto_mac x t n payload tx L T) as E. unfold is_type.
  destruct (commit_msg P x t n payload tx) as [|b l]; [discriminate|].
  unfold body in E. cbn [plus firstn] in E. injection E as -> _. reflexivity.
Qed.

End WithPrims.
