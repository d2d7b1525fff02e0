(** Rules for the functions of Protocol.v: each lists the possible outcomes. *)
From Verif Require Import Base ConstTime Prims HashDomains Wire Server Protocol Wp Inv.
Local Open Scope m_scope.

Ltac wstep :=
  lazymatch goal with
  | |- wp (bind _ _) _ _ => apply wp_bind
  | |- wp (ret _) _ _ => apply wp_ret
  | |- wp (fail _) _ _ => apply wp_fail
  | |- wp get _ _ => apply wp_get
  | |- wp (modify _) _ _ => apply wp_modify
  | |- wp (need _ (Some _)) _ _ => apply wp_ret
  | |- wp (need _ None) _ _ => apply wp_fail
  | |- wp (need _ _) _ _ => apply wp_need; [let a := fresh "a" in intros a ?| intros ?]
  | |- wp (ensure _ _) _ _ => apply wp_ensure; intros ?
  | |- wp (get_peer _) _ _ => eapply wp_get_peer; [eassumption|]
  | |- wp (match ?x with _ => _ end) _ _ => destruct x eqn:?
  end; cbv beta iota.
Ltac wsteps := repeat wstep.

Lemma with_peer_twice p a b s : with_peer p a (with_peer p b s) = with_peer p a s.
Proof. unfold with_peer. cbn [s_peers set_peers]. now rewrite upd_upd. Qed.

Lemma with_peer_same p x s : pe s p = Some x -> with_peer p x s = s.
Proof.
  intros H. unfold with_peer. rewrite upd_same by exact H. now destruct s.
Qed.

Section WithPrims.
Context (P : prims).

(** * Lengths *)

Lemma hmix_len a k d : length (hmix P a k d) = 32.
Proof. apply khash_len. Qed.

Lemma mac_of_len a pk d : length (mac_of P a pk d) = 16.
Proof. unfold mac_of. rewrite firstn_length, hmix_len. reflexivity. Qed.
Lemma cookie_of_len v d : length (cookie_of P v d) = 16.
Proof. unfold cookie_of. rewrite firstn_length, hmix_len. reflexivity. Qed.

Lemma seal_cookie_len x n m : length m = n + 36 -> length (seal_cookie P x n m) = n + 36.
Proof.
  intros L. unfold seal_cookie. destruct (p_handshake x); [|exact L].
  rewrite app_length, cookie_of_len. unfold env_upto_cookie. rewrite firstn_length. lia.
Qed.
Lemma seal_len x n m : length m = n + 36 -> length (seal P x n m) = n + 36.
Proof.
  intros L. unfold seal. apply seal_cookie_len.
  rewrite !app_length, mac_of_len. unfold env_upto_mac, env_cookie.
  rewrite firstn_length, slice_length by lia. lia.
Qed.
Lemma commit_msg_len x t n payload tx :
  length payload = n -> n + 36 <= length tx ->
  length (commit_msg P x t n payload tx) = n + 36.
Proof.
  intros L T. unfold commit_msg. apply seal_len. cbn [length].
  unfold env_mac, env_cookie.
  rewrite !app_length, !slice_length by lia. lia.
Qed.

Lemma cpy_min_len a b : length (cpy_min a b) = length b.
Proof. unfold cpy_min. rewrite app_length, firstn_length, skipn_length. lia. Qed.

(** * Retransmission *)

Lemma register_retransmission_eq now c p x h s :
  pe s p = Some x -> p_handshake x = Some h ->
  register_retransmission now c p s =
  (with_peer p (set_handshake
     (Some (set_retry (now + retransmit_delay (hs_tx_count h) (c_jitter c))
                      (hs_tx_count h + 1) h)) x) s, Ok tt).
Proof.
  intros H E. unfold register_retransmission, put_hs, upd_peer, get_hs, bind, get_peer.
  unfold pe in H. rewrite H. rewrite E. cbn [need ret]. rewrite H. unfold put_peer.
  assert (p < length (s_peers s)) as L by (apply nth_error_Some; congruence).
  now rewrite (proj2 (Nat.ltb_lt _ _) L).
Qed.

Lemma put_peer_eq p x x' s : pe s p = Some x -> put_peer p x' s = (with_peer p x' s, Ok tt).
Proof.
  intros H. pose proof (pe_lt _ _ _ H) as L. unfold npeers in L.
  unfold put_peer. now rewrite (proj2 (Nat.ltb_lt _ _) L).
Qed.
Lemma upd_peer_eq p x f s : pe s p = Some x -> upd_peer p f s = (with_peer p (f x) s, Ok tt).
Proof.
  intros H. unfold upd_peer, bind, get_peer. unfold pe in H. rewrite H.
  eapply put_peer_eq; eauto.
Qed.
Lemma pe_with_same p x x' s : pe s p = Some x -> pe (with_peer p x' s) p = Some x'.
Proof. intros H. rewrite (pe_with_peer _ _ _ _ _ H), Nat.eqb_refl. reflexivity. Qed.

Definition stored (now : time) (c : coins) (msg : bytes) (h : ihs) : ihs :=
  set_retry (now + retransmit_delay 0 (c_jitter c)) (0 + 1)
    (set_tx (length msg) (cpy_min msg (hs_tx_buf h)) 0 h).

Lemma store_msg_eq now c p msg x h s :
  pe s p = Some x -> p_handshake x = Some h ->
  store_msg now c p msg s =
  (with_peer p (set_handshake (Some (stored now c msg h)) x) s, Ok tt).
Proof.
  intros H E. unfold store_msg, bind at 1, get_hs, bind at 1, get_peer.
  unfold pe in H. rewrite H. rewrite E. cbn [need ret].
  unfold bind, put_hs.
  erewrite upd_peer_eq by (unfold pe; exact H).
  erewrite register_retransmission_eq; [|eapply pe_with_same; exact H|reflexivity].
  rewrite with_peer_twice. reflexivity.
Qed.

Lemma wp_store_msg now c p msg x h (Q : srv -> res err unit -> Prop) s :
  pe s p = Some x -> p_handshake x = Some h ->
  Q (with_peer p (set_handshake (Some (stored now c msg h)) x) s) (Ok tt) ->
  wp (store_msg now c p msg) Q s.
Proof. intros H E HQ. unfold wp. erewrite store_msg_eq; eauto. Qed.

Lemma wp_register_retransmission now c p x h (Q : srv -> res err unit -> Prop) s :
  pe s p = Some x -> p_handshake x = Some h ->
  Q (with_peer p (set_handshake
     (Some (set_retry (now + retransmit_delay (hs_tx_count h) (c_jitter c))
                      (hs_tx_count h + 1) h)) x) s) (Ok tt) ->
  wp (register_retransmission now c p) Q s.
Proof. intros H E HQ. unfold wp. erewrite register_retransmission_eq; eauto. Qed.

Lemma wp_put_hs p x h (Q : srv -> res err unit -> Prop) s :
  pe s p = Some x ->
  Q (with_peer p (set_handshake (Some h) x) s) (Ok tt) -> wp (put_hs p h) Q s.
Proof. intros H HQ. unfold put_hs. eapply wp_upd_peer; eauto. Qed.

Lemma wf_stored now c msg h : wf_hs h -> length msg <= 2500 -> wf_hs (stored now c msg h).
Proof.
  intros (A & B & C & D) L. repeat split; cbn; auto. now rewrite cpy_min_len.
Qed.

(** * Biscuit keys *)

Definition bk_choice (now : time) (c : coins) (s : srv) : srv * bool :=
  let t := cs_created (s_bk0 s) in
  let u := cs_created (s_bk1 s) in
  let r := if (t >=? u)%Z then false else true in
  match bk_lifecycle now (get_bk r s) with
  | Young => (s, r)
  | _ => let r' := if (t <? u)%Z then false else true in
         (set_bk r' {| cs_created := now; cs_value := c_bkey c |} s, r')
  end.

Lemma active_biscuit_key_eq now c s :
  active_biscuit_key now c s = (fst (bk_choice now c s), Ok (snd (bk_choice now c s))).
Proof.
  unfold active_biscuit_key, bind, get, bk_choice. cbn [fst snd].
  destruct (bk_lifecycle _ _); reflexivity.
Qed.

Lemma bk_choice_frame now c s :
  let s' := fst (bk_choice now c s) in
  s_sskm s' = s_sskm s /\ s_spkm s' = s_spkm s /\ s_bctr s' = s_bctr s /\
  s_peers s' = s_peers s /\ s_index s' = s_index s /\ s_khkey s' = s_khkey s /\
  s_poll_off s' = s_poll_off s /\ s_cs0 s' = s_cs0 s /\ s_cs1 s' = s_cs1 s.
Proof.
  unfold bk_choice. destruct (bk_lifecycle _ _); cbn [fst]; repeat split; reflexivity.
Qed.

(** State after a biscuit was issued. *)
Definition after_biscuit (now : time) (c : coins) (s : srv) : srv :=
  fst (bk_choice now c (set_bctr (increment (s_bctr s)) s)).
Definition biscuit_slot (now : time) (c : coins) (s : srv) : bool :=
  snd (bk_choice now c (set_bctr (increment (s_bctr s)) s)).
(** The issued biscuit. *)
Definition biscuit_ct (now : time) (c : coins) (s : srv) (x : peer) (core : hs_core) : bytes :=
  xenc P (cs_value (get_bk (biscuit_slot now c s) (after_biscuit now c s)))
    (tag_nonce (biscuit_slot now c s) (c_bnonce c))
    (biscuit_ad P (p_alg x) (s_spkm s) (hc_sidi core) (hc_sidr core))
    (ser_bi {| bi_pidi := pidt P x; bi_no := s_bctr s; bi_ck := hc_ck core |}).

Lemma after_biscuit_frame now c s :
  let s' := after_biscuit now c s in
  s_sskm s' = s_sskm s /\ s_spkm s' = s_spkm s /\ s_bctr s' = increment (s_bctr s) /\
  s_peers s' = s_peers s /\ s_index s' = s_index s /\ s_khkey s' = s_khkey s /\
  s_poll_off s' = s_poll_off s /\ s_cs0 s' = s_cs0 s /\ s_cs1 s' = s_cs1 s.
Proof. apply (bk_choice_frame now c (set_bctr (increment (s_bctr s)) s)). Qed.

Lemma store_biscuit_eq now c p core x s :
  pe s p = Some x ->
  store_biscuit P now c p core s =
  (after_biscuit now c s,
   Ok (biscuit_ct now c s x core,
       ck_mix P (hc_alg core) (hc_ck core) (biscuit_ct now c s x core))).
Proof.
  intros H. unfold store_biscuit, bind at 1, get_peer. unfold pe in H. rewrite H.
  unfold bind at 1, get. unfold bind at 1, modify. unfold bind at 1.
  rewrite active_biscuit_key_eq. reflexivity.
Qed.

Lemma wp_store_biscuit now c p core x (Q : srv -> res err (bytes * bytes) -> Prop) s :
  pe s p = Some x ->
  Q (after_biscuit now c s)
    (Ok (biscuit_ct now c s x core,
         ck_mix P (hc_alg core) (hc_ck core) (biscuit_ct now c s x core))) ->
  wp (store_biscuit P now c p core) Q s.
Proof. intros H HQ. unfold wp. erewrite store_biscuit_eq; eauto. Qed.

Lemma tag_nonce_len i n : length (tag_nonce i n) = length n.
Proof. now destruct n. Qed.

Lemma pidt_len x : length (pidt P x) = 32.
Proof. unfold pidt, peer_id. apply hmix_len. Qed.

Lemma ck_mix_len a ck x : length (ck_mix P a ck x) = 32.
Proof. apply hmix_len. Qed.

Lemma biscuit_ct_len now c s x core :
  wf_coins c -> length (s_bctr s) = 12 -> length (hc_ck core) = 32 ->
  length (biscuit_ct now c s x core) = 116.
Proof.
  intros (_ & L & _) B K. unfold biscuit_ct. rewrite xenc_len by (rewrite tag_nonce_len; exact L).
  rewrite ser_bi_len; [reflexivity|]. repeat split; cbn; auto. apply pidt_len.
Qed.

(** * InitHello *)

Lemma aead_len k n ad pt m : length pt = m -> length (aead_enc P k n ad pt) = m + 16.
Proof. intros <-. apply aead_enc_len. Qed.

Lemma ih_compute_wf s x c : wf_coins c -> wf_ih (fst (ih_compute P s x c)).
Proof.
  intros (Ls & _). unfold ih_compute.
  pose proof (skem_ct_len P (c_enc1 c) (p_spkt x)) as Lc.
  destruct (skem_enc P (c_enc1 c) (p_spkt x)) as [shk ct]. cbn [snd] in Lc.
  unfold encrypt_and_mix. cbn [fst]. repeat split; cbn [ih_sidi ih_epki ih_sctr ih_pidi_ct ih_auth]; auto.
  - apply ekem_pk_len.
  - rewrite (aead_len _ _ _ _ 32); [reflexivity|]. apply hmix_len.
  - apply aead_enc_len.
Qed.

Lemma ih_compute_sid s x c : ih_sidi (fst (ih_compute P s x c)) = c_sid c.
Proof.
  unfold ih_compute. destruct (skem_enc P (c_enc1 c) (p_spkt x)) as [shk ct]. reflexivity.
Qed.

Definition ini_hs (now : time) (c : coins) (s : srv) (x : peer) : ihs :=
  {| hs_created := now; hs_next := ExpRespHello;
     hs_cor := {| hc_sidi := c_sid c; hc_sidr := zeros 4; hc_ck := snd (ih_compute P s x c);
                  hc_alg := p_alg x |};
     hs_eski := fst (ekem_gen P (c_kp c)); hs_epki := snd (ekem_gen P (c_kp c));
     hs_retry_at := 0; hs_tx_count := 0; hs_tx_len := 0;
     hs_tx_buf := zeros MAX_MESSAGE_LEN;
     hs_cookie := new_store (c_cookie c) |}.

Lemma wf_ini_hs now c s x : wf_coins c -> wf_hs (ini_hs now c s x).
Proof.
  intros (L & _). split; [apply zeros_length|]. split; [apply Nat.le_0_l|].
  split; [exact L|]. apply ekem_pk_len.
Qed.

Lemma wp_handle_initiation now c p x (Q : srv -> res err init_hello -> Prop) s :
  pe s p = Some x ->
  (forall s',
     (ix s (KSid (c_sid c)) = None \/ ix s (KSid (c_sid c)) = Some p) ->
     st_rel s s' p (ins_hs (ini_hs now c s x) x)
       (ix_hs_take (ix_add (ix s) (c_sid c) p) x) ->
     Q s' (Ok (fst (ih_compute P s x c)))) ->
  (forall q, q <> p -> ix s (KSid (c_sid c)) = Some q -> Q s (Err ESidInUse)) ->
  wp (handle_initiation P now c p) Q s.
Proof.
  intros H H1 H2. unfold handle_initiation. wstep. wstep. wstep. wstep.
  unfold ini_hs in H1. destruct (ih_compute P s x c) as [ih ck]. cbn [fst snd] in *.
  apply wp_bind. eapply wp_hs_insert; [exact H| |exact H2].
  intros s1 C R. cbv beta iota. apply wp_ret. apply H1; [exact C|]. exact R.
Qed.

(** The message and state after [initiate_handshake]. *)
Definition ih_msg (now : time) (c : coins) (s : srv) (x : peer) (tx : bytes) : bytes :=
  commit_msg P (ins_hs (ini_hs now c s x) x) MInitHello IH_LEN
    (ser_ih (fst (ih_compute P s x c))) tx.

Lemma ih_msg_len now c s x tx :
  wf_coins c -> env_len IH_LEN <= length tx -> length (ih_msg now c s x tx) = env_len IH_LEN.
Proof.
  intros W L. unfold ih_msg. apply commit_msg_len; [|exact L].
  apply ser_ih_len, ih_compute_wf, W.
Qed.

Lemma wp_initiate_handshake now c p x tx (Q : srv -> res err bytes -> Prop) s :
  pe s p = Some x -> env_len IH_LEN <= length tx ->
  (forall s' s'',
     (ix s (KSid (c_sid c)) = None \/ ix s (KSid (c_sid c)) = Some p) ->
     st_rel s s' p (ins_hs (ini_hs now c s x) x)
       (ix_hs_take (ix_add (ix s) (c_sid c) p) x) ->
     s'' = with_peer p (set_handshake
             (Some (stored now c (ih_msg now c s x tx) (ini_hs now c s x)))
             (ins_hs (ini_hs now c s x) x)) s' ->
     Q s'' (Ok (ih_msg now c s x tx))) ->
  (forall q, q <> p -> ix s (KSid (c_sid c)) = Some q -> Q s (Err ESidInUse)) ->
  wp (initiate_handshake P now c p tx) Q s.
Proof.
  intros H L H1 H2. unfold initiate_handshake.
  rewrite (proj2 (Nat.ltb_ge _ _) L). wstep.
  eapply wp_handle_initiation; eauto. intros s' C R. cbv beta iota.
  pose proof (st_rel_self _ _ _ _ _ R) as H'.
  wstep. wstep. wstep. eapply wp_store_msg; [exact H'|reflexivity|]. cbv beta iota.
  wstep. eapply H1; eauto.
Qed.


(** * Responder: InitHello *)

(** The checks of [handle_init_hello]: the peer and the chaining key. *)
Definition ih_accept (s : srv) (ih : init_hello) (a : halg) : (nat * peer * bytes) + err :=
  match handle_ih_dec P s ih a with
  | None => inr EDecrypt
  | Some (id, ck) =>
      match find_peer s id with
      | None => inr ENoSuchPeer
      | Some p =>
          match pe s p with
          | None => inr ENoSuchPeer
          | Some x =>
              match decrypt_and_mix P a (ck_mix P a (ck_mix P a ck (p_spkt x)) (p_psk x))
                      (ih_auth ih) with
              | None => inr EDecrypt
              | Some (_, ck) => inl (p, x, ck)
              end
          end
      end
  end.

(** The chaining key that goes into the biscuit, and the two ciphertexts. *)
Definition rh_ck (ih : init_hello) (a : halg) (c : coins) (x : peer) (ck : bytes) : bytes :=
  let ck := ck_mix P a ck (c_sid c) in
  let ck := ck_mix P a ck (ih_sidi ih) in
  let ck := kem_mix P a ck (ih_epki ih) (fst (ekem_enc P (c_enc1 c) (ih_epki ih)))
              (snd (ekem_enc P (c_enc1 c) (ih_epki ih))) in
  kem_mix P a ck (p_spkt x) (fst (skem_enc P (c_enc2 c) (p_spkt x)))
    (snd (skem_enc P (c_enc2 c) (p_spkt x))).
Definition rh_core (ih : init_hello) (a : halg) (c : coins) (x : peer) (ck : bytes) : hs_core :=
  {| hc_sidi := ih_sidi ih; hc_sidr := c_sid c; hc_ck := rh_ck ih a c x ck; hc_alg := a |}.
Definition rh_of (now : time) (c : coins) (s : srv) (x : peer) (ih : init_hello) (a : halg)
  (ck : bytes) : resp_hello :=
  let core := rh_core ih a c x ck in
  let bct := biscuit_ct now c s x core in
  {| rh_sidr := c_sid c; rh_sidi := ih_sidi ih;
     rh_ecti := snd (ekem_enc P (c_enc1 c) (ih_epki ih));
     rh_scti := snd (skem_enc P (c_enc2 c) (p_spkt x));
     rh_auth := fst (encrypt_and_mix P a (ck_mix P a (hc_ck core) bct) []);
     rh_biscuit := bct |}.

Lemma handle_init_hello_eq now c ih a s :
  inv P s ->
  handle_init_hello P now c ih a s =
  match ih_accept s ih a with
  | inr e => (s, Err e)
  | inl (p, x, ck) => (after_biscuit now c s, Ok (p, rh_of now c s x ih a ck))
  end.
Proof.
  intros I. unfold handle_init_hello, ih_accept. unfold bind at 1, get at 1.
  destruct (handle_ih_dec P s ih a) as [[id ck]|]; [|reflexivity].
  unfold need at 1, bind at 1, ret at 1.
  destruct (find_peer s id) as [p|] eqn:F; [|reflexivity].
  unfold need at 1, bind at 1, ret at 1.
  destruct (inv_pe P s (KPeer id) p I F) as [x X]. rewrite X.
  unfold bind at 1, get_peer at 1. unfold pe in X. rewrite X.
  destruct (decrypt_and_mix P a (ck_mix P a (ck_mix P a ck (p_spkt x)) (p_psk x)) (ih_auth ih))
    as [[pt ck1]|]; [|reflexivity].
  unfold need, bind at 1, ret at 1. unfold rh_of, rh_core, rh_ck.
  destruct (ekem_enc P (c_enc1 c) (ih_epki ih)) as [k1 t1].
  destruct (skem_enc P (c_enc2 c) (p_spkt x)) as [k2 t2].
  unfold bind at 1. erewrite store_biscuit_eq by (unfold pe; exact X).
  reflexivity.
Qed.

Lemma rh_of_wf now c s x ih a ck :
  wf_coins c -> length (ih_sidi ih) = 4 -> length (s_bctr s) = 12 ->
  wf_rh (rh_of now c s x ih a ck).
Proof.
  intros W L B. unfold rh_of. split; [apply W|]. split; [exact L|].
  split; [apply ekem_ct_len|]. split; [apply skem_ct_len|].
  split; [cbn [rh_auth]; apply aead_enc_len|]. cbn [rh_biscuit].
  apply biscuit_ct_len; auto. apply hmix_len.
Qed.

Lemma ih_accept_pe s ih a p x ck :
  ih_accept s ih a = inl (p, x, ck) -> pe s p = Some x.
Proof.
  unfold ih_accept. destruct (handle_ih_dec P s ih a) as [[id ck0]|]; [|discriminate].
  destruct (find_peer s id) as [q|]; [|discriminate].
  destruct (pe s q) as [y|] eqn:E; [|discriminate].
  destruct (decrypt_and_mix _ _ _ _) as [[? ?]|]; [|discriminate]. congruence.
Qed.

(** * Initiator: RespHello *)

Definition erased (h : ihs) : ihs :=
  set_core ExpRespConf
    {| hc_sidi := hc_sidi (hs_cor h); hc_sidr := hc_sidr (hs_cor h);
       hc_ck := zeros 32; hc_alg := hc_alg (hs_cor h) |} h.

Lemma ses_take_keeps s p x h :
  p_handshake x = Some h -> ix s (KSid (hs_sid h)) = Some p ->
  ix_ses_take (ix s) x (KSid (hs_sid h)) = Some p.
Proof.
  intros E I. unfold ix_ses_take, ix_drop. destruct (p_session x) as [u|]; [|exact I].
  destruct (hs_has_id (se_sidm u) (p_handshake x)) eqn:F; [exact I|].
  destruct (ikey_eqb (KSid (hs_sid h)) (KSid (se_sidm u))) eqn:G; [|exact I].
  apply ikey_eqb_eq in G. injection G as G. rewrite E in F. cbn [hs_has_id] in F.
  fold (hs_sid h) in F. rewrite G in F. now rewrite bytes_eqb_refl in F.
Qed.

Lemma handle_rh_compute_sidi s h rh ic core :
  handle_rh_compute P s h rh = Some (ic, core) ->
  hc_sidi core = hs_sid h /\ hc_sidr core = rh_sidr rh /\ hc_alg core = hc_alg (hs_cor h) /\
  ic_sidi ic = rh_sidi rh /\ ic_sidr ic = rh_sidr rh /\ ic_biscuit ic = rh_biscuit rh /\
  length (ic_auth ic) = 16.
Proof.
  unfold handle_rh_compute. destruct (decrypt_and_mix _ _ _ _) as [[pt ck]|]; [|discriminate].
  unfold encrypt_and_mix. intros [= <- <-]. repeat split. apply aead_enc_len.
Qed.

Lemma wp_handle_resp_hello now rh (Q : srv -> res err (nat * init_conf) -> Prop) s :
  inv P s -> wf_rh rh ->
  (forall e, Q s (Err e)) ->
  (forall p x h ic core s',
     ix s (KSid (rh_sidi rh)) = Some p -> pe s p = Some x -> p_handshake x = Some h ->
     hs_sid h = rh_sidi rh -> hs_next h = ExpRespHello ->
     handle_rh_compute P s h rh = Some (ic, core) ->
     st_rel s s' p
       (set_handshake (Some (erased h))
          (set_session (Some (enter_live P now core Initiator (p_alg x))) x))
       (ix_add (ix_ses_take (ix s) x) (hs_sid h) p) ->
     good P s s' ->
     Q s' (Ok (p, ic))) ->
  wp (handle_resp_hello P now rh) Q s.
Proof.
  intros I WF HE HO. unfold handle_resp_hello. wstep.
  apply wp_lookup_handshake.
  - intros p H. eapply inv_lt; eauto.
  - intros p x h Hi Hp Hh Hs. cbv beta iota. wstep. wstep.
    wstep. wstep. wstep. eapply wp_unwrap; [exact Hh|]. cbv beta iota.
    destruct (hs_next h) eqn:N; [|apply wp_fail, HE].
    wstep. wstep. wstep. wstep; [|apply HE].
    destruct a as [ic core]. wstep.
    pose proof (handle_rh_compute_sidi _ _ _ _ _ H) as (S1 & S2 & _).
    pose proof (wp_hs _ (i_wf P s I p x Hp) h Hh) as WH.
    eapply wp_ses_insert; [exact Hp| |].
    + intros s1 _ R1. cbv beta iota.
      assert (good P s s1) as G1.
      { eapply good_ses_insert; [exact I|exact Hp| |exact R1].
        split; cbn [se_sidm se_sidt enter_live]; [rewrite S1; apply WH|rewrite S2; apply WF]. }
      pose proof (st_rel_self _ _ _ _ _ R1) as Hp1.
      wstep. wstep. wstep. eapply wp_unwrap; [exact Hh|]. cbv beta iota.
      wstep. eapply wp_put_hs; [exact Hp1|]. cbv beta iota. apply wp_ret.
      eapply HO; eauto.
      * eapply st_rel_trans; [exact R1|]. eapply st_rel_ext.
        -- eapply with_peer_rel. exact Hp1.
        -- intros k. rewrite (sr_ix _ _ _ _ _ R1). cbn [se_sidm enter_live]. now rewrite S1.
      * eapply good_trans; [exact G1|].
        eapply good_put_hs; [apply G1|exact Hp1|exact Hh|reflexivity|].
        destruct WH as (W1 & W2 & W3 & W4). repeat split; auto.
    + intros s1 q Nq E _. exfalso. cbn [se_sidm enter_live] in E. rewrite S1 in E.
      rewrite (ses_take_keeps s p x h Hh) in E by congruence. congruence.
  - cbv beta iota. wstep. wstep. apply HE.
Qed.

(** * Responder: InitConf *)

(** The checks of [handle_init_conf]: peer, biscuit number and final handshake state. *)
Definition ic_accept (s : srv) (ic : init_conf) (a : halg)
  : (nat * peer * bytes * hs_core) + err :=
  match xdec P (cs_value (get_bk (nonce_slot (ic_biscuit ic)) s))
          (biscuit_ad P a (s_spkm s) (ic_sidi ic) (ic_sidr ic)) (ic_biscuit ic) with
  | None => inr EDecrypt
  | Some pt =>
      let b := parse_bi pt in
      match find_peer s (bi_pidi b) with
      | None => inr ENoSuchPeer
      | Some p =>
          match pe s p with
          | None => inr ENoSuchPeer
          | Some x =>
              let core := {| hc_sidi := ic_sidi ic; hc_sidr := ic_sidr ic;
                             hc_ck := ck_mix P (p_alg x) (bi_ck b) (ic_biscuit ic);
                             hc_alg := p_alg x |} in
              match handle_ic_ck P core ic with
              | None => inr EDecrypt
              | Some ck =>
                  if (le_dec (bi_no b) <=? le_dec (p_biscuit_used x))%N
                  then inr EOutdatedBiscuit
                  else inl (p, x, bi_no b,
                            {| hc_sidi := ic_sidi ic; hc_sidr := ic_sidr ic; hc_ck := ck;
                               hc_alg := p_alg x |})
              end
          end
      end
  end.

Definition ic_session (now : time) (x : peer) (core : hs_core) : session :=
  enter_live P now core Responder (p_alg x).
(** The confirmation sent by the responder. *)
Definition rc_of (u : session) : empty_data :=
  {| ed_sid := se_sidt u; ed_ctr := le_enc 8 (se_txnm u);
     ed_auth := aead_enc P (se_txkm u) (le_enc 8 (se_txnm u) ++ zeros 4) [] [] |}.

Definition ic_peer (now : time) (x : peer) (bno : bytes) (core : hs_core) : peer :=
  set_handshake None
    (set_session (Some (set_txnm 1 (ic_session now x core))) (set_biscuit_used bno x)).

Definition ix_ic (f : ikey -> option nat) (x : peer) (u : session) (p : nat)
  : ikey -> option nat :=
  ix_hs_take (ix_add (ix_ses_take f x) (se_sidm u) p) (set_session (Some u) x).

Lemma biscuit_pt_len k ad ct pt :
  length ct = 116 -> xdec P k ad ct = Some pt -> length pt = 76.
Proof.
  intros L E. unfold xdec in E. apply xaead_dec_len in E. rewrite skipn_length, L in E. lia.
Qed.

Lemma compare_gt a b : length a = 12 -> length b = 12 ->
  exists z, compare a b = Some z /\ Z.gtb z 0 = negb (N.leb (le_dec a) (le_dec b)).
Proof.
  intros A B. pose proof (compare_spec a b) as C.
  rewrite C by congruence. eexists; split; [reflexivity|].
  destruct (le_dec a ?= le_dec b)%N eqn:E; unfold N.leb; rewrite E; reflexivity.
Qed.

Lemma ic_accept_bno s ic a p x bno core :
  length (ic_biscuit ic) = 116 -> ic_accept s ic a = inl (p, x, bno, core) ->
  length bno = 12 /\ pe s p = Some x /\
  (le_dec (p_biscuit_used x) < le_dec bno)%N /\
  hc_sidi core = ic_sidi ic /\ hc_sidr core = ic_sidr ic /\ hc_alg core = p_alg x.
Proof.
  intros L. unfold ic_accept.
  destruct (xdec _ _ _ _) as [pt|] eqn:E; [|discriminate].
  destruct (find_peer _ _) as [q|] eqn:F; [|discriminate].
  destruct (pe s q) as [y|] eqn:G; [|discriminate].
  destruct (handle_ic_ck _ _ _) as [ck|]; [|discriminate].
  destruct (N.leb_spec (le_dec (bi_no (parse_bi pt))) (le_dec (p_biscuit_used y)));
    [discriminate|].
  intros [= <- <- <- <-]. repeat split; auto.
  apply (wf_parse_bi pt). eapply biscuit_pt_len; eauto.
Qed.

Lemma wp_handle_init_conf now ic a (Q : srv -> res err (nat * empty_data) -> Prop) s :
  inv P s -> wf_ic ic ->
  (forall e, ic_accept s ic a = inr e -> Q s (Err e)) ->
  (forall p x bno core s' q,
     ic_accept s ic a = inl (p, x, bno, core) ->
     q <> p -> ix_ses_take (ix s) x (KSid (ic_sidr ic)) = Some q ->
     st_rel s s' p (set_session None (set_biscuit_used bno x)) (ix_ses_take (ix s) x) ->
     good P s s' ->
     Q s' (Err ESidInUse)) ->
  (forall p x bno core s',
     ic_accept s ic a = inl (p, x, bno, core) ->
     (ix_ses_take (ix s) x (KSid (ic_sidr ic)) = None \/
      ix_ses_take (ix s) x (KSid (ic_sidr ic)) = Some p) ->
     st_rel s s' p (ic_peer now x bno core) (ix_ic (ix s) x (ic_session now x core) p) ->
     good P s s' ->
     Q s' (Ok (p, rc_of (ic_session now x core)))) ->
  wp (handle_init_conf P now ic a) Q s.
Proof.
  intros I (L1 & L2 & L & L4) HE HS HO. unfold handle_init_conf, load_biscuit.
  wstep. wstep. wstep. wstep.
  assert (A : ic_accept s ic a = ic_accept s ic a) by reflexivity.
  unfold ic_accept in A at 2.
  destruct (xdec P _ _ _) as [pt|] eqn:E; cycle 1.
  { wstep. apply wp_fail, HE, A. }
  wstep. wstep. cbn zeta in A.
  pose proof (biscuit_pt_len _ _ _ _ L E) as Lpt.
  pose proof (wf_parse_bi pt Lpt) as (_ & Lbno & _).
  destruct (find_peer s (bi_pidi (parse_bi pt))) as [p|] eqn:F; cycle 1.
  { wstep. apply wp_fail, HE, A. }
  wstep. wstep.
  destruct (inv_pe P s (KPeer _) p I F) as [x X]. rewrite X in A.
  wstep. wstep. wstep.
  set (core := {| hc_sidi := ic_sidi ic |}) in *.
  destruct (handle_ic_ck P core ic) as [ck|] eqn:K; cycle 1.
  { apply wp_fail, HE, A. }
  wstep. wstep. wstep. wstep.
  pose proof (i_wf P s I p x X) as W.
  destruct (compare_gt (bi_no (parse_bi pt)) (p_biscuit_used x) Lbno (wp_bu _ W))
    as (z & C & Cz).
  eapply wp_unwrap; [exact C|]. cbv beta iota. wstep. rewrite Cz.
  destruct (N.leb (le_dec (bi_no (parse_bi pt))) (le_dec (p_biscuit_used x))) eqn:B.
  { unfold ensure. cbn [negb]. apply wp_fail, HE, A. }
  unfold ensure. cbn [negb]. wstep. wstep. eapply wp_upd_peer; [exact X|]. cbv beta iota.
  set (core' := {| hc_sidi := hc_sidi core |}) in *.
  pose proof (with_peer_rel s p x (set_biscuit_used (bi_no (parse_bi pt)) x) X) as R1.
  set (s1 := with_peer p (set_biscuit_used (bi_no (parse_bi pt)) x) s) in *.
  pose proof (st_rel_self _ _ _ _ _ R1) as X1.
  assert (good P s s1) as G1.
  { eapply good_with_peer; [exact I|exact X| |reflexivity|auto|].
    - split; try reflexivity. cbn [p_biscuit_used set_biscuit_used].
      apply N.lt_le_incl. now apply N.leb_gt.
    - destruct W as [W1 W2 W3 W4]. split; auto. }
  wstep. eapply wp_ses_insert; [exact X1| |].
  - intros s2 SF R2. cbv beta iota. wstep.
    assert (good P s1 s2) as G2.
    { eapply good_ses_insert; [apply G1|exact X1| |exact R2].
      split; cbn [se_sidm se_sidt enter_live]; [exact L2|exact L1]. }
    pose proof (st_rel_self _ _ _ _ _ R2) as X2.
    eapply wp_hs_take; [exact X2|]. intros s3 R3. cbv beta iota.
    assert (good P s2 s3) as G3.
    { eapply good_hs_take; [apply G2|exact X2|exact R3]. }
    pose proof (st_rel_self _ _ _ _ _ R3) as X3.
    wstep. wstep. wstep. cbn [p_session set_handshake set_session]. wstep. wstep.
    eapply wp_put_peer; [exact X3|]. cbv beta iota. apply wp_ret.
    eapply HO; [exact A|exact SF| |].
    2:{ eapply good_trans; [exact G1|]. eapply good_trans; [exact G2|].
        eapply good_trans; [exact G3|].
        eapply good_put_ses; [apply G3|exact X3|reflexivity|reflexivity|].
        split; cbn [se_sidm se_sidt enter_live set_txnm]; [exact L2|exact L1]. }
    eapply st_rel_trans; [exact R1|]. eapply st_rel_trans; [exact R2|].
    eapply st_rel_trans; [exact R3|]. eapply st_rel_ext.
    + eapply with_peer_rel. exact X3.
    + intros k. rewrite (sr_ix _ _ _ _ _ R3).
      unfold ix_ic, ix_hs_take, ix_drop, ix_add, ix_ses_take, ix_drop.
      cbn [p_handshake p_session set_session set_biscuit_used].
      destruct (p_handshake x) as [h|] eqn:Eh; rewrite !(sr_ix _ _ _ _ _ R2);
        unfold ix_add, ix_ses_take, ix_drop;
        cbn [p_handshake p_session set_session set_biscuit_used]; rewrite Eh; reflexivity.
  - intros s2 q Nq E2 R2. cbv beta iota.
    eapply HS; [exact A|exact Nq|exact E2| |].
    + eapply st_rel_trans; [exact R1|]. exact R2.
    + eapply good_trans; [exact G1|].
      eapply good_ses_take; [apply G1|exact X1|exact R2].
Qed.

(** * Initiator: EmptyData *)

Lemma wp_handle_resp_conf m (Q : srv -> res err nat -> Prop) s :
  inv P s ->
  (forall e, Q s (Err e)) ->
  (forall p x h u,
     let rc := parse_ed (env_payload ED_LEN m) in
     ix s (KSid (ed_sid rc)) = Some p -> pe s p = Some x -> p_handshake x = Some h ->
     hs_sid h = ed_sid rc -> hs_next h = ExpRespConf -> p_session x = Some u ->
     check_seal P s (p_alg x) ED_LEN m = true ->
     (se_txnt u <= le_dec (ed_ctr rc))%N ->
     let x1 := set_session (Some (set_txnt (le_dec (ed_ctr rc)) u)) x in
     (aead_dec P (se_txkt u) (ed_ctr rc ++ zeros 4) [] (ed_auth rc) = None ->
      good P s (with_peer p x1 s) ->
      Q (with_peer p x1 s) (Err EDecrypt)) /\
     (forall s' pt,
        aead_dec P (se_txkt u) (ed_ctr rc ++ zeros 4) [] (ed_auth rc) = Some pt ->
        st_rel s s' p (set_handshake None x1) (ix_hs_take (ix s) x1) ->
        good P s s' ->
        Q s' (Ok p))) ->
  wp (handle_resp_conf P m) Q s.
Proof.
  intros I HE HO. unfold handle_resp_conf. cbn zeta in HO.
  set (rc := parse_ed (env_payload ED_LEN m)) in *.
  wstep. apply wp_lookup_handshake.
  - intros p H. eapply inv_lt; eauto.
  - intros p x h Hi Hp Hh Hs. cbv beta iota. wstep. wstep.
    wstep. wstep. wstep. wstep. wstep. wstep; [|apply HE]. wstep. rewrite Hh.
    wstep; [|apply HE]. destruct (hs_next h) eqn:N; [discriminate|].
    wstep. wstep; [|apply HE]. wstep. wstep; [|apply HE]. wstep.
    rename a into u.
    destruct (HO p x h u) as [G1 G2]; auto. { now apply N.leb_le. }
    eapply wp_put_peer; [exact Hp|]. cbv beta iota. wstep.
    assert (good P s (with_peer p (set_session (Some (set_txnt (le_dec (ed_ctr rc)) u)) x) s)) as D1.
    { eapply good_put_ses; [exact I|exact Hp|eassumption|reflexivity|].
      now apply (wp_ses _ (i_wf P s I p x Hp) u). }
    wstep; [|now apply G1]. wstep.
    pose proof (with_peer_rel s p x (set_session (Some (set_txnt (le_dec (ed_ctr rc)) u)) x) Hp) as R1.
    pose proof (st_rel_self _ _ _ _ _ R1) as X1.
    eapply wp_hs_take; [exact X1|]. intros s2 R2. cbv beta iota. apply wp_ret.
    eapply G2; [eassumption| |].
    + eapply st_rel_trans; [exact R1|]. exact R2.
    + eapply good_trans; [exact D1|]. eapply good_hs_take; [apply D1|exact X1|exact R2].
  - cbv beta iota. wstep. wstep. apply HE.
Qed.

(** * Initiator: CookieReply *)

Lemma wp_handle_cookie_reply now cr (Q : srv -> res err nat -> Prop) s :
  inv P s ->
  (forall e, Q s (Err e)) ->
  (forall p x h mac,
     ix s (KSid (cr_sid cr)) = Some p -> pe s p = Some x -> has_id (cr_sid cr) x = true ->
     p_handshake x = Some h -> last_mac h = Some mac ->
     let d := dec_in_place P (hmix P Shake (d_cookie_key P Shake) (p_spkt x)) mac (cr_cookie cr) in
     let h1 := set_hs_cookie {| cs_created := now; cs_value := fst d |} h in
     (snd d = false ->
      good P s (with_peer p (set_handshake (Some h1) x) s) ->
      Q (with_peer p (set_handshake (Some h1) x) s) (Err EDecrypt)) /\
     (snd d = true ->
      good P s (with_peer p (set_handshake (Some (set_retry now (hs_tx_count h + 1) h1)) x) s) ->
      Q (with_peer p (set_handshake (Some (set_retry now (hs_tx_count h + 1) h1)) x) s) (Ok p))) ->
  wp (handle_cookie_reply P now cr) Q s.
Proof.
  intros I HE HO. unfold handle_cookie_reply.
  assert (forall p x, ix s (KSid (cr_sid cr)) = Some p -> pe s p = Some x ->
    has_id (cr_sid cr) x = true ->
    wp (x0 <- get_peer p;;
        h <- need ENoLastMsg (p_handshake x0);;
        mac <- need ENoLastMsg (last_mac h);;
        (let '(v, good) := dec_in_place P (hmix P Shake (d_cookie_key P Shake) (p_spkt x0)) mac (cr_cookie cr) in
         put_hs p (set_hs_cookie {| cs_created := now; cs_value := v |} h);;;
         ensure good EDecrypt;;;
         register_immediate_retransmission now p;;; ret p)) Q s) as K.
  { intros p x Hi Hp Hid. wstep. wstep. wstep. wstep; [|apply HE]. wstep. wstep; [|apply HE].
    rename a into h. rename a0 into mac.
    destruct (HO p x h mac) as [H1 H2]; auto.
    destruct (dec_in_place _ _ _ _) as [v gd]. cbn [fst snd] in *.
    assert (forall h', hs_sid h' = hs_sid h -> hs_tx_buf h' = hs_tx_buf h ->
      hs_tx_len h' = hs_tx_len h -> hs_epki h' = hs_epki h ->
      good P s (with_peer p (set_handshake (Some h') x) s)) as D.
    { intros h' E1 E2 E3 E4. eapply good_put_hs; [exact I|exact Hp|eassumption|exact E1|].
      destruct (wp_hs _ (i_wf P s I p x Hp) h) as (W1 & W2 & W3 & W4); [assumption|].
      unfold wf_hs. rewrite E1, E2, E3, E4. repeat split; auto. }
    wstep. eapply wp_put_hs; [exact Hp|]. cbv beta iota. wstep.
    wstep; [|apply H1; [assumption|now apply D]]. wstep.
    unfold register_immediate_retransmission, get_hs. wstep. wstep.
    eapply wp_get_peer; [eapply pe_with_same; exact Hp|]. cbv beta iota.
    cbn [p_handshake set_handshake]. wstep.
    eapply wp_put_hs; [eapply pe_with_same; exact Hp|]. cbv beta iota. wstep.
    rewrite with_peer_twice. apply H2; [assumption|now apply D]. }
  wstep. apply wp_lookup_session.
  - intros p H. eapply inv_lt; eauto.
  - intros p x u Hi Hp Hu Hs. cbv beta iota. wstep. wstep. wstep. wstep.
    eapply K; eauto. unfold has_id. rewrite Hu. cbn [ses_has_id]. rewrite Hs.
    now rewrite bytes_eqb_refl.
  - cbv beta iota. wstep. apply wp_lookup_handshake.
    + intros p H. eapply inv_lt; eauto.
    + intros p x h Hi Hp Hu Hs. cbv beta iota. wstep. wstep.
      eapply K; eauto. unfold has_id. rewrite Hu. cbn [hs_has_id]. fold (hs_sid h).
      rewrite Hs, bytes_eqb_refl. apply orb_true_r.
    + cbv beta iota. wstep. wstep. apply HE.
Qed.

End WithPrims.
