(** C50: the secret of a session is the hash of exactly the transcript of its handshake. *)
From Verif Require Import Base ConstTime PConstTime Prims HashDomains Wire Server Protocol Wp Inv Rules Calls PollRules System Trans Spec Transcript Demo PSafety PReplay PNotice Forward PRetransmit PCookie PWire PHandshake PDomains.
Local Open Scope m_scope.

(** The chaining key after the three messages (papers/whitepaper.md, figure "Rosenpass Message
    Handling"), for initiator [pki], responder [pkr], pre-shared key [psk], the messages InitHello
    [m1], RespHello [m2], InitConf [m3], and the three encapsulated secrets: [k1] for the
    responder's static key, [k2] for the ephemeral key, [k3] for the initiator's static key. *)
Definition transcript (P : prims) (a : halg) (pki pkr psk m1 m2 m3 k1 k2 k3 : bytes) : bytes :=
  mixed P a (chain_start P a pkr)
    [hello_sidi m1; hello_epki m1; pkr; k1; hello_sctr m1; hello_pidct m1; pki; psk; hello_auth m1;
     resp_sidr m2; resp_sidi m2; hello_epki m1; k2; resp_ecti m2; pki; k3; resp_scti m2;
     resp_biscuit m2; resp_auth m2;
     conf_sidi m3; conf_sidr m3; conf_auth m3].

(** The secret of the session with peer [p]. *)
Definition session_secret (s : srv) (p : nat) (k : bytes) : Prop :=
  exists x u, nth_error (s_peers s) p = Some x /\ p_session x = Some u /\ se_ck u = k.

Section Facts.
Context (P : prims).

Lemma ih_msg_fields now c s x tx : wf_coins c -> 1100 <= length tx ->
  let m := ih_msg P now c s x tx in
  let a := p_alg x in
  hello_sidi m = c_sid c /\ hello_epki m = snd (ekem_gen P (c_kp c)) /\
  hello_sctr m = snd (skem_enc P (c_enc1 c) (p_spkt x)) /\
  snd (ih_compute P s x c) =
  mixed P a (chain_start P a (p_spkt x))
    [hello_sidi m; hello_epki m; p_spkt x; fst (skem_enc P (c_enc1 c) (p_spkt x)); hello_sctr m;
     hello_pidct m; s_spkm s; p_psk x; hello_auth m].
Proof.
  intros W T m a.
  assert (wf_ih (fst (ih_compute P s x c))) as WI by (apply ih_compute_wf; exact W).
  assert (length (ser_ih (fst (ih_compute P s x c))) = IH_LEN) as LI by (apply ser_ih_len; exact WI).
  assert (IH_LEN + 36 <= length tx) as TI by (unfold IH_LEN; lia).
  assert (length m = 1060) as L1 by (exact (commit_msg_len P _ MInitHello IH_LEN _ _ LI TI)).
  assert (parse_ih (env_payload IH_LEN m) = fst (ih_compute P s x c)) as Pa.
  { unfold m, ih_msg. rewrite (payload_of P _ MInitHello IH_LEN _ _ LI TI). now apply parse_ser_ih. }
  destruct (hello_parse m L1) as (E1 & E2 & E3 & E4 & E5). rewrite Pa in *.
  rewrite <- E1, <- E2, <- E3, <- E4, <- E5. unfold ih_compute.
  destruct (skem_enc P (c_enc1 c) (p_spkt x)) as [shk ct]. cbn [fst snd].
  repeat split.
Qed.

Lemma rh_chain s h m ic core :
  handle_rh_compute P s h (parse_rh (env_payload RH_LEN m)) = Some (ic, core) ->
  hc_ck core = mixed P (hc_alg (hs_cor h)) (hc_ck (hs_cor h))
    [resp_sidr m; resp_sidi m; hs_epki h; ekem_dec P (hs_eski h) (resp_ecti m); resp_ecti m;
     s_spkm s; skem_dec P (s_sskm s) (resp_scti m); resp_scti m; resp_biscuit m; resp_auth m;
     ic_sidi ic; ic_sidr ic; ic_auth ic].
Proof.
  intros H. destruct (resp_parse m) as (E1 & E2 & E3 & E4 & E5 & E6). cbn zeta in *.
  unfold handle_rh_compute in H. rewrite E1, E2, E3, E4, E5, E6 in H.
  destruct (decrypt_and_mix _ _ _ (resp_auth m)) as [[e c2]|] eqn:D in H; [|discriminate].
  apply dm_opens in D. destruct D as [_ ->]. unfold encrypt_and_mix in H.
  injection H as <- <-. reflexivity.
Qed.

Lemma ic_msg_fields now x h core ic tx : wf_ic ic -> 1100 <= length tx ->
  let m := ic_msg P now x h core ic tx in
  conf_sidi m = ic_sidi ic /\ conf_sidr m = ic_sidr ic /\ conf_biscuit m = ic_biscuit ic /\
  conf_auth m = ic_auth ic.
Proof.
  intros WC T m.
  assert (length (ser_ic ic) = IC_LEN) as LC by (apply ser_ic_len; exact WC).
  assert (IC_LEN + 36 <= length tx) as TC by (unfold IC_LEN; lia).
  assert (parse_ic (env_payload IC_LEN m) = ic) as Pa.
  { unfold m, ic_msg. rewrite (payload_of P _ MInitConf IC_LEN _ _ LC TC). now apply parse_ser_ic. }
  destruct (conf_parse m) as (E1 & E2 & E3). pose proof (conf_parse_auth m) as E4.
  rewrite Pa in *. auto.
Qed.

Lemma mixed_app a ck l l' : mixed P a ck (l ++ l') = mixed P a (mixed P a ck l) l'.
Proof. apply fold_left_app. Qed.
End Facts.

(** The initiator: it initiated a handshake with [p], sending [m1]; while this handshake was
    pending it accepted [m2] and answered [m3]. *)
Theorem C50_initiator : forall P s p x c1 tx1 s1 m1 h s2 c2 m2 tx2 s3 m3,
  reachable P s -> nth_error (s_peers s) p = Some x ->
  valid c1 s -> c_op c1 = OInitiate p tx1 -> exec P c1 s = (s1, Ok (RSent m1)) ->
  run P s1 h s2 -> still_pending s1 s2 p ->
  valid c2 s2 -> c_op c2 = OMsg m2 tx2 -> is_type x82 m2 ->
  exec P c2 s2 = (s3, Ok (RHandled {| mr_exchanged := Some p; mr_resp := Some m3 |})) ->
  exists esk k1,
    (esk, hello_epki m1) = ekem_gen P (c_kp (c_coins c1)) /\
    (k1, hello_sctr m1) = skem_enc P (c_enc1 (c_coins c1)) (p_spkt x) /\
    session_secret s3 p
      (transcript P (p_alg x) (s_spkm s) (p_spkt x) (p_psk x) m1 m2 m3
         k1 (ekem_dec P esk (resp_ecti m2)) (skem_dec P (s_sskm s) (resp_scti m2))).
Proof.
  intros P s p x c1 tx1 s1 m1 h s2 c2 m2 tx2 s3 m3 Re X V1 O1 E1 Rn SP V2 O2 Ty E2.
  pose proof (reachable_inv P _ Re) as I.
  pose proof (exec_step P c1 s s1 _ I V1 E1) as S.
  assert (m1 = ih_msg P (c_now c1) (c_coins c1) s x tx1 /\
    st_rel s s1 p
      (ins_hs (stored (c_now c1) (c_coins c1) (ih_msg P (c_now c1) (c_coins c1) s x tx1)
                      (ini_hs P (c_now c1) (c_coins c1) s x)) x)
      (ix_hs_take (ix_add (ix s) (c_sid (c_coins c1)) p) x)) as [-> R1].
  { inversion S; try congruence.
    assert (p0 = p) by congruence. assert (tx = tx1) by congruence. subst p0 tx.
    assert (x0 = x) by (unfold pe in *; congruence). subst x0. auto. }
  pose proof (exec_inv P _ _ _ _ I V1 E1) as I1. pose proof (run_inv P _ _ _ I1 Rn) as I2.
  assert (evo s s2) as Ev.
  { eapply evo_trans; [eapply exec_evo; eauto|]. eapply System.run_evo; eauto. }
  destruct V1 as [W1 T1]. rewrite O1 in T1. destruct T1 as [_ T1].
  destruct (ih_msg_fields P (c_now c1) (c_coins c1) s x tx1 W1 T1) as (F1 & F2 & F3 & F4).
  set (m1 := ih_msg P (c_now c1) (c_coins c1) s x tx1) in *.
  destruct SP as (xa1 & xa2 & h1 & h2 & Xa1 & Xa2 & H1 & H2 & SPn & SPc & SPs & SPp & SPi).
  pose proof (st_rel_self _ _ _ _ _ R1) as Xa1'. unfold pe in Xa1'. rewrite Xa1 in Xa1'.
  apply some_inj in Xa1'. subst xa1. change (Some (stored (c_now c1) (c_coins c1) m1 (ini_hs P (c_now c1) (c_coins c1) s x)) = Some h1) in H1.
  apply some_inj in H1. subst h1.
  cbn [stored set_retry set_tx ini_hs hs_next hs_cor hs_eski hs_epki] in SPn, SPc, SPs, SPp.
  pose proof (exec_msg_ok P c2 m2 tx2 s2 s3 _ I2 V2 O2 E2) as M.
  pose proof (first_type_of _ _ Ty) as FT. cbn [mt_of] in FT.
  inversion M as [| | | |q y hh ic core s4 FT' L Hi Hp Hh Hs Hn Hc CS R'| | | | | | | |]; try congruence.
  assert (q = p) by congruence. subst q s4.
  assert (y = xa2) by (unfold pe in Hp; congruence). subst y. assert (hh = h2) by congruence. subst hh.
  match goal with H : ic_msg _ _ _ _ _ _ _ = m3 |- _ => rename H into Em3 end.
  exists (fst (ekem_gen P (c_kp (c_coins c1)))), (fst (skem_enc P (c_enc1 (c_coins c1)) (p_spkt x))).
  rewrite F2, F3. split; [symmetry; apply surjective_pairing|]. split; [symmetry; apply surjective_pairing|].
  eexists _, _. split; [exact (st_rel_self _ _ _ _ _ R')|]. split; [reflexivity|].
  change (hc_ck core = transcript P (p_alg x) (s_spkm s) (p_spkt x) (p_psk x) m1 m2
    (ic_msg P (c_now c2) xa2 h2 core ic tx2) (fst (skem_enc P (c_enc1 (c_coins c1)) (p_spkt x)))
    (ekem_dec P (fst (ekem_gen P (c_kp (c_coins c1)))) (resp_ecti m2))
    (skem_dec P (s_sskm s) (resp_scti m2))).
  rewrite (rh_chain P _ _ _ _ _ Hc), SPc, SPs, SPp. cbn [hc_alg hc_ck]. rewrite F4.
  assert (wf_ic ic) as WC.
  { eapply (wf_ic_of P (parse_rh (env_payload RH_LEN m2)) h2 s2); [now apply wf_rx_rh|exact Hc]. }
  destruct V2 as [_ T2]. rewrite O2 in T2.
  destruct (ic_msg_fields P (c_now c2) xa2 h2 core ic tx2 WC T2) as (G1 & G2 & _ & G4).
  unfold transcript. rewrite G1, G2, G4, F2.
  rewrite (ev_pk _ _ Ev), (ev_sk _ _ Ev). reflexivity.
Qed.
Print Assumptions C50_initiator.

(** * The responder *)

Section Responder.
Context (P : prims).

Lemma rh_msg_fields now c s x ih a ck tx : inv P s -> wf_coins c -> wf_ih ih -> 1100 <= length tx ->
  let m := rh_msg P now c s x ih a ck tx in
  let rh := rh_of P now c s x ih a ck in
  resp_sidr m = rh_sidr rh /\ resp_sidi m = rh_sidi rh /\ resp_ecti m = rh_ecti rh /\
  resp_scti m = rh_scti rh /\ resp_auth m = rh_auth rh /\ resp_biscuit m = rh_biscuit rh.
Proof.
  intros I W WI T m rh.
  assert (wf_rh rh) as WR by (apply rh_of_wf; [exact W|apply WI|apply (i_bctr P s I)]).
  assert (length (ser_rh rh) = RH_LEN) as LR by (apply ser_rh_len; exact WR).
  assert (RH_LEN + 36 <= length tx) as TR by exact T.
  assert (parse_rh (env_payload RH_LEN m) = rh) as Pa.
  { unfold m, rh_msg. rewrite (payload_of P _ MRespHello RH_LEN _ _ LR TR). now apply parse_ser_rh. }
  destruct (resp_parse m) as (E1 & E2 & E3 & E4 & E5 & E6). rewrite Pa in *. auto 10.
Qed.

Lemma ih_chain s m a p x ck : length m = 1060 ->
  ih_accept P s (parse_ih (env_payload IH_LEN m)) a = inl (p, x, ck) ->
  ck = mixed P a (chain_start P a (s_spkm s))
    [hello_sidi m; hello_epki m; s_spkm s; skem_dec P (s_sskm s) (hello_sctr m); hello_sctr m;
     hello_pidct m; p_spkt x; p_psk x; hello_auth m].
Proof.
  intros L H. unfold ih_accept, handle_ih_dec in H.
  destruct (hello_parse m L) as (E1 & E2 & E3 & E4 & E5). cbn zeta in *.
  rewrite E1, E2, E3, E4, E5 in H.
  destruct (decrypt_and_mix _ _ _ _) as [[pid c1]|] eqn:D1 in H; [|discriminate].
  destruct (find_peer s pid) as [q|] eqn:F; [|discriminate].
  destruct (pe s q) as [y|] eqn:Y; [|discriminate].
  destruct (decrypt_and_mix _ _ _ (hello_auth m)) as [[e c2]|] eqn:D2 in H; [|discriminate].
  injection H as <- <- <-. apply dm_opens in D1. destruct D1 as [_ ->].
  apply dm_opens in D2. destruct D2 as [_ ->]. reflexivity.
Qed.

Lemma biscuit_back (C : correct P) now c s x core :
  wf_coins c -> length (s_bctr s) = 12 -> length (hc_ck core) = 32 ->
  let b := biscuit_ct P now c s x core in
  exists pt, biscuit_opens P (p_alg x) (s_spkm s) (named_key (after_biscuit now c s) b)
      (hc_sidi core) (hc_sidr core) b pt /\
    biscuit_peer pt = peer_id P (p_alg x) (p_spkt x) /\ biscuit_number pt = le_dec (s_bctr s) /\
    biscuit_chain pt = hc_ck core.
Proof.
  intros (W1 & W2 & W3) Lb Lk b.
  assert (nonce_slot b = biscuit_slot now c s) as Sl.
  { unfold b, biscuit_ct, xenc. apply tag_slot. intros Z. rewrite Z in W2. discriminate. }
  exists (ser_bi {| bi_pidi := pidt P x; bi_no := s_bctr s; bi_ck := hc_ck core |}). split.
  - apply biscuit_opens_ad. rewrite named_key_slot, Sl. unfold b, biscuit_ct.
    apply xdec_xenc; auto. now rewrite tag_nonce_len.
  - pose proof (parse_ser_bi {| bi_pidi := pidt P x; bi_no := s_bctr s; bi_ck := hc_ck core |}) as Pa.
    unfold parse_bi in Pa. assert (length (pidt P x) = 32) as Lp by apply pidt_len.
    specialize (Pa ltac:(repeat split; auto)). injection Pa as E1 E2 E3.
    unfold biscuit_peer, biscuit_number, biscuit_chain. rewrite E1, E2, E3. auto.
Qed.

(** The chaining key kept in the biscuit. *)
Definition biscuit_content (a : halg) (pki pkr psk m1 m2 k1 k2 k3 : bytes) : bytes :=
  mixed P a (chain_start P a pkr)
    [hello_sidi m1; hello_epki m1; pkr; k1; hello_sctr m1; hello_pidct m1; pki; psk; hello_auth m1;
     resp_sidr m2; resp_sidi m2; hello_epki m1; k2; resp_ecti m2; pki; k3; resp_scti m2].
End Responder.

Lemma exists_rh P now c m1 tx t s1 o m2 :
  msgstep P now c m1 tx t s1 (Ok {| mr_exchanged := o; mr_resp := Some m2 |}) -> is_type x82 m2 ->
  exists p x ck, first_type m1 = Some MInitHello /\ length m1 = 1060 /\
    ih_try P t (parse_ih (env_payload IH_LEN m1)) = Some (p, x, ck, p_alg x) /\
    m2 = rh_msg P now c t x (parse_ih (env_payload IH_LEN m1)) (p_alg x) ck tx /\
    s1 = after_biscuit now c t.
Proof.
  intros M Ty.
  remember (Ok {| mr_exchanged := o; mr_resp := Some m2 |}) as r1 eqn:Er.
  destruct M; try discriminate; unfold handled in Er; injection Er as Eo Em; subst.
  1: eauto 10.
  all: exfalso; revert Ty; now apply commit_not.
Qed.

Theorem C50_responder_hello : forall P s c1 m1 s1 r1 m2,
  correct P -> reachable P s -> valid c1 s -> received c1 = Some m1 -> exec P c1 s = (s1, r1) ->
  replied r1 m2 -> is_type x82 m2 ->
  exists p x k2 k3 pt, nth_error (s_peers s) p = Some x /\
    (k2, resp_ecti m2) = ekem_enc P (c_enc1 (c_coins c1)) (hello_epki m1) /\
    (k3, resp_scti m2) = skem_enc P (c_enc2 (c_coins c1)) (p_spkt x) /\
    biscuit_opens P (p_alg x) (s_spkm s) (named_key s1 (resp_biscuit m2)) (resp_sidi m2) (resp_sidr m2)
      (resp_biscuit m2) pt /\
    biscuit_peer pt = peer_id P (p_alg x) (p_spkt x) /\
    biscuit_chain pt = biscuit_content P (p_alg x) (p_spkt x) (s_spkm s) (p_psk x) m1 m2
      (skem_dec P (s_sskm s) (hello_sctr m1)) k2 k3 /\
    resp_auth m2 = aead_enc P (tag_key P (p_alg x) (mix1 P (p_alg x) (biscuit_chain pt) (resp_biscuit m2)))
                     (zeros 12) [] [].
Proof.
  intros P s c1 m1 s1 r1 m2 C Re V1 Rc E (o & ->) Ty.
  pose proof (reachable_inv P _ Re) as I.
  destruct (handled_msgstep P c1 m1 s s1 _ I V1 Rc E) as (tx & t & Ht & LT & [M|(FT & _ & _ & m' & Em & T')]).
  2:{ exfalso. cbn [mr_resp] in Em. injection Em as ->. unfold is_type in *. congruence. }
  destruct V1 as [W _].
  assert (inv P t /\ s_spkm t = s_spkm s /\ s_sskm t = s_sskm s /\ s_peers t = s_peers s) as (It & Ek & Es & Ep).
  { destruct Ht as [->| ->]; [auto|].
    destruct (cs_choice_frame (c_now c1) (c_coins c1) s) as (A & B & _ & _ & _ & D & _).
    split; [apply cs_choice_good, I|auto]. }
  destruct (exists_rh P _ _ _ _ _ _ _ _ M Ty) as (p & x & ck & FT & L & Hi & Em & ->).
  destruct (ih_try_pe P _ _ _ _ _ _ Hi) as [X Ac].
  pose proof (ih_chain P _ _ _ _ _ _ L Ac) as Eck.
  assert (wf_ih (parse_ih (env_payload IH_LEN m1))) as WI by now apply wf_rx_ih.
  destruct (rh_msg_fields P (c_now c1) (c_coins c1) t x _ (p_alg x) ck tx It W WI LT)
    as (G1 & G2 & G3 & G4 & G5 & G6). rewrite <- Em in *.
  cbn [rh_of rh_sidr rh_sidi rh_ecti rh_scti rh_auth rh_biscuit] in G1, G2, G3, G4, G5, G6.
  destruct (hello_parse m1 L) as (E1 & E2 & _). cbn zeta in E1, E2.
  set (ih := parse_ih (env_payload IH_LEN m1)) in *.
  set (core := rh_core P ih (p_alg x) (c_coins c1) x ck) in *.
  destruct (biscuit_back P C (c_now c1) (c_coins c1) t x core W (i_bctr P t It) ltac:(apply hmix_len))
    as (pt & O & B1 & _ & B3).
  rewrite E2 in G3.
  exists p, x, (fst (ekem_enc P (c_enc1 (c_coins c1)) (hello_epki m1))),
    (fst (skem_enc P (c_enc2 (c_coins c1)) (p_spkt x))), pt.
  split; [unfold pe in X; now rewrite <- Ep|].
  split; [rewrite G3; symmetry; apply surjective_pairing|].
  split; [rewrite G4; symmetry; apply surjective_pairing|].
  split; [rewrite <- Ek, G1, G2, G6; exact O|]. split; [exact B1|].
  split.
  - rewrite B3. unfold core, rh_core. cbn [hc_ck]. unfold rh_ck. rewrite Eck, E1, E2.
    unfold biscuit_content. rewrite G1, G2, G3, G4, E1, Ek, Es. reflexivity.
  - rewrite B3, G5, G6. reflexivity.
Qed.
Print Assumptions C50_responder_hello.

Lemma ic_chain P s m a p x bno core : length m = 176 ->
  ic_accept P s (parse_ic (env_payload IC_LEN m)) a = inl (p, x, bno, core) ->
  exists pt, biscuit_opens P a (s_spkm s) (named_key s (conf_biscuit m)) (conf_sidi m)
               (conf_sidr m) (conf_biscuit m) pt /\
    find_peer s (biscuit_peer pt) = Some p /\ pe s p = Some x /\
    let ck1 := mix1 P (p_alg x) (biscuit_chain pt) (conf_biscuit m) in
    hc_ck core = mixed P (p_alg x) ck1
      [aead_enc P (tag_key P (p_alg x) ck1) (zeros 12) [] []; conf_sidi m; conf_sidr m; conf_auth m].
Proof.
  intros L H. destruct (ic_accept_spec P s m a p x bno core L H) as (pt & O & -> & F & X & N).
  exists pt. split; [exact O|]. split; [exact F|]. split; [exact X|].
  unfold ic_accept in H. destruct (conf_parse m) as (E1 & E2 & E3).
  rewrite E1, E2, E3, <- named_key_slot in H. rewrite (proj1 (biscuit_opens_ad _ _ _ _ _ _ _ _) O) in H.
  cbn [bi_pidi bi_no bi_ck parse_bi] in H.
  change (slice 0 32 pt) with (biscuit_peer pt) in H. rewrite F, X in H.
  unfold handle_ic_ck in H. cbn [hc_alg hc_ck] in H.
  rewrite E1, E2, conf_parse_auth in H.
  destruct (encrypt_and_mix _ _ _ _) as [t c0] eqn:Et in H.
  unfold encrypt_and_mix in Et. injection Et as Et1 Et2.
  destruct (decrypt_and_mix _ _ _ (conf_auth m)) as [[e c2]|] eqn:D in H; [|discriminate].
  apply dm_opens in D. destruct D as [_ ->].
  destruct (N.leb _ _); [discriminate|]. injection H as <-. subst c0 t. reflexivity.
Qed.

(** The responder completing an exchange. *)
Theorem C50_responder_conf : forall P s c m3 s' r p,
  reachable P s -> valid c s -> received c = Some m3 -> is_type x83 m3 ->
  exec P c s = (s', r) -> exchanged r p ->
  exists x pt, nth_error (s_peers s) p = Some x /\
    biscuit_opens P (p_alg x) (s_spkm s) (named_key s (conf_biscuit m3)) (conf_sidi m3)
      (conf_sidr m3) (conf_biscuit m3) pt /\
    biscuit_peer pt = peer_id P (p_alg x) (p_spkt x) /\
    let ck1 := mix1 P (p_alg x) (biscuit_chain pt) (conf_biscuit m3) in
    session_secret s' p (mixed P (p_alg x) ck1
      [aead_enc P (tag_key P (p_alg x) ck1) (zeros 12) [] []; conf_sidi m3; conf_sidr m3; conf_auth m3]).
Proof.
  intros P s c rx s' r p Re V Rc Ty E (m & ->). pose proof (reachable_inv P _ Re) as I.
  destruct (handled_msgstep P c rx s s' _ I V Rc E) as (tx & s0 & Hs0 & LT & [M|(FT & _)]).
  2:{ apply first_type_of in Ty. cbn in Ty. congruence. }
  apply first_type_of in Ty. cbn in Ty.
  destruct (cs_choice_same (c_now c) (c_coins c) s) as (EP & EI & EPK & EK & _).
  inversion M; subst; try congruence.
  match goal with H : length rx = 176 |- _ => rename H into L end.
  match goal with H : ic_accept _ _ _ _ = inl _ |- _ => rename H into HI end.
  match goal with H : _ /\ _ \/ _ /\ _ |- _ => rename H into HA end.
  match goal with K : keep P s0 s1 |- _ => rename K into K0 end.
  destruct (ic_chain P _ _ _ _ _ _ _ L HI) as (pt & O & Fp & X & Ck).
  assert (rest s1 = rest s0) as ER.
  { destruct HA as [[_ ->]|[_ F]]; auto. eapply ic_failed_rest; eauto. }
  rewrite (rest_key _ _ _ ER), (rest_pk _ _ ER) in O.
  assert (exists y, pe s p = Some y /\ p_alg y = p_alg x /\ p_spkt y = p_spkt x) as (y & Y & Ya & Yb).
  { pose proof (inv_pe P s1 (KPeer (biscuit_peer pt)) p (g_inv _ _ _ (proj1 K0)) Fp) as [x0 X0].
    assert (p < npeers s) as Lp.
    { apply pe_lt in X0. rewrite (g_n _ _ _ (proj1 K0)) in X0.
      destruct Hs0 as [->| ->]; auto. unfold npeers in *. now rewrite EP in X0. }
    destruct (pe_some s p Lp) as [y Y]. exists y. split; auto.
    assert (pe s0 p = Some y) as Y0.
    { destruct Hs0 as [->| ->]; auto. unfold pe. now rewrite EP. }
    destruct (ev_pe _ _ (g_evo _ _ _ (proj1 K0)) p y Y0) as (x1 & X1 & W).
    rewrite X in X1. injection X1 as <-. destruct W. split; congruence. }
  destruct (i_peer1 P s1 (g_inv _ _ _ (proj1 K0)) _ _ Fp) as (z & Z & Ep).
  rewrite X in Z. injection Z as <-.
  match goal with R : st_rel _ s' p _ _ |- _ => rename R into R2 end.
  exists y, pt. split; [exact Y|]. rewrite Ya, Yb. split; [|split].
  - destruct Hs0 as [->| ->]; auto. now rewrite EK, EPK in O.
  - rewrite <- Ep. reflexivity.
  - cbn zeta in *. eexists _, _. split; [eapply st_rel_self; exact R2|]. split; [reflexivity|].
    exact Ck.
Qed.
Print Assumptions C50_responder_conf.

(** Both halves: the responder answered [m1] with [m2] and later, with the biscuit key still in
    place, completed the exchange on an [m3] that carries the biscuit and the ids of [m2].  Then
    its session has the same transcript as the initiator's; the only escape is a biscuit that
    opens in the other protocol version as well. *)
Theorem C50_responder : forall P s c1 m1 s1 r1 m2 h s2 c2 m3 s3 r2 p,
  correct P -> reachable P s ->
  valid c1 s -> received c1 = Some m1 -> exec P c1 s = (s1, r1) -> replied r1 m2 -> is_type x82 m2 ->
  run P s1 h s2 ->
  valid c2 s2 -> received c2 = Some m3 -> is_type x83 m3 -> exec P c2 s2 = (s3, r2) -> exchanged r2 p ->
  conf_biscuit m3 = resp_biscuit m2 -> conf_sidi m3 = resp_sidi m2 -> conf_sidr m3 = resp_sidr m2 ->
  named_key s2 (resp_biscuit m2) = named_key s1 (resp_biscuit m2) ->
  (exists a a' pt pt', a <> a' /\
     biscuit_opens P a (s_spkm s) (named_key s1 (resp_biscuit m2)) (resp_sidi m2) (resp_sidr m2)
       (resp_biscuit m2) pt /\
     biscuit_opens P a' (s_spkm s) (named_key s1 (resp_biscuit m2)) (resp_sidi m2) (resp_sidr m2)
       (resp_biscuit m2) pt') \/
  exists x k2 k3, nth_error (s_peers s) p = Some x /\
    (k2, resp_ecti m2) = ekem_enc P (c_enc1 (c_coins c1)) (hello_epki m1) /\
    (k3, resp_scti m2) = skem_enc P (c_enc2 (c_coins c1)) (p_spkt x) /\
    session_secret s3 p
      (transcript P (p_alg x) (p_spkt x) (s_spkm s) (p_psk x) m1 m2 m3
         (skem_dec P (s_sskm s) (hello_sctr m1)) k2 k3).
Proof.
  intros P s c1 m1 s1 r1 m2 h s2 c2 m3 s3 r2 p C Re V1 Rc1 E1 Rp Ty2 Rn V2 Rc2 Ty3 E2 Ex Eb Ei Er NK.
  destruct (C50_responder_hello P s c1 m1 s1 r1 m2 C Re V1 Rc1 E1 Rp Ty2)
    as (q & x & k2 & k3 & pt & X & K2 & K3 & O & Bp & Bc & Au).
  assert (reachable P s2) as Re2.
  { destruct Re as (s0 & h0 & I0 & R0). exists s0, (h0 ++ (c1, r1) :: h). split; [exact I0|].
    eapply run_app; [exact R0|]. econstructor; eauto. }
  destruct (C50_responder_conf P s2 c2 m3 s3 r2 p Re2 V2 Rc2 Ty3 E2 Ex) as (y & pt' & Y & O' & Bp' & Sec).
  pose proof (reachable_inv P _ Re) as I.
  assert (run P s ((c1, r1) :: h) s2) as Rr by (econstructor; eauto).
  pose proof (System.run_evo P _ _ _ I Rr) as Ev.
  rewrite Eb, Ei, Er, NK, (ev_pk _ _ Ev) in O'.
  destruct (halg_dec (p_alg x) (p_alg y)) as [Ea|N].
  2:{ left. exists (p_alg x), (p_alg y), pt, pt'. auto. }
  right. rewrite <- Ea in O'. unfold biscuit_opens in O, O'. rewrite O in O'. apply some_inj in O'. subst pt'.
  destruct (ev_pe _ _ Ev q x X) as (x2 & X2 & PE).
  assert (q = p) as ->.
  { apply (C07_identities_distinct P s2 q p x2 y Re2 X2 Y).
    rewrite (pv_alg _ _ PE), (pv_spkt _ _ PE), <- Bp. exact Bp'. }
  exists x, k2, k3. split; [exact X|]. split; [exact K2|]. split; [exact K3|].
  cbn zeta in Sec. rewrite Eb, <- Ea in Sec. rewrite <- Au, Bc in Sec.
  exact Sec.
Qed.
Print Assumptions C50_responder.

(** The demonstration handshake meets the hypotheses of all of these, and the transcript is the
    same on both sides. *)
Example C50_nonvacuous :
  exec Demo.P Demo.cA2 Demo.A1 = (Demo.A2, Ok (RSent Demo.m1)) /\ valid Demo.cA2 Demo.A1 /\
  still_pending Demo.A2 Demo.A2 0 /\
  exec Demo.P Demo.cA3 Demo.A2 =
    (Demo.A3, Ok (RHandled {| mr_exchanged := Some 0; mr_resp := Some Demo.m3 |})) /\
  valid Demo.cA3 Demo.A2 /\ received Demo.cA3 = Some Demo.m2 /\ is_type x82 Demo.m2 /\
  exec Demo.P Demo.cB2 Demo.B1 =
    (Demo.B2, Ok (RHandled {| mr_exchanged := None; mr_resp := Some Demo.m2 |})) /\
  received Demo.cB2 = Some Demo.m1 /\ received Demo.cB3 = Some Demo.m3 /\ is_type x83 Demo.m3 /\
  conf_biscuit Demo.m3 = resp_biscuit Demo.m2 /\ conf_sidi Demo.m3 = resp_sidi Demo.m2 /\
  conf_sidr Demo.m3 = resp_sidr Demo.m2 /\
  exists k, session_secret Demo.A3 0 k /\ session_secret Demo.B3 0 k.
Proof.
  split; [vm_compute; reflexivity|]. split; [Demo.okv|].
  split. { eapply still_pending_self; [reflexivity|reflexivity|vm_compute; reflexivity]. }
  split; [vm_compute; reflexivity|]. split; [Demo.okv|]. split; [reflexivity|]. split; [reflexivity|].
  split; [vm_compute; reflexivity|]. split; [reflexivity|]. split; [reflexivity|]. split; [reflexivity|].
  split; [vm_compute; reflexivity|]. split; [vm_compute; reflexivity|]. split; [vm_compute; reflexivity|].
  eexists. split; (eexists _, _; split; [reflexivity|]; split; [reflexivity|]; vm_compute; reflexivity).
Qed.

(** * C51 *)

(** An acknowledgement is accepted only if it names the pending handshake of a peer, whose
    RespHello was already accepted, is sealed for this server, has a counter not below the last
    one seen in the session, and opens under the receiving key of that session with that counter
    as nonce.  It then ends that handshake and has no other effect: all output keys, all other
    peers and the pre-existing session stay as they are. *)
Theorem C51_acknowledgement : forall P s c rx tx s',
  reachable P s -> valid c s -> c_op c = OMsg rx tx -> is_type x84 rx ->
  exec P c s = (s', Ok (RHandled {| mr_exchanged := None; mr_resp := None |})) ->
  exists p x h u x',
    nth_error (s_peers s) p = Some x /\ nth_error (s_peers s') p = Some x' /\
    p_handshake x = Some h /\ hc_sidi (hs_cor h) = data_sid rx /\ hs_next h = ExpRespConf /\
    p_session x = Some u /\ sealed P (p_alg x) (s_spkm s) rx /\
    (se_txnt u <= le_dec (data_ctr rx))%N /\
    (exists e, aead_dec P (se_txkt u) (data_ctr rx ++ zeros 4) [] (data_auth rx) = Some e) /\
    p_handshake x' = None /\ p_session x' = Some (set_txnt (le_dec (data_ctr rx)) u) /\
    (forall q, q <> p -> nth_error (s_peers s') q = nth_error (s_peers s) q) /\
    (forall q k, key_at P s q k -> key_at P s' q k) /\
    (forall c' tx', valid c' s' -> c_op c' = ORetransmit p tx' -> exec P c' s' = (s', Err ENoHandshake)).
Proof.
  intros P s c rx tx s' Re V Eo Ty E. pose proof (reachable_inv P _ Re) as I.
  pose proof (exec_msg_ok P c rx tx s s' _ I V Eo E) as M.
  pose proof (first_type_of _ _ Ty) as FT. cbn [mt_of] in FT.
  inversion M as [| | | | | | | | | |p x h u s1 pt FT' L Hi Hp Hh Hs Hn Hu CS Ht D R| |]; try congruence.
  destruct (data_parse rx) as (D1 & D2 & D3). cbn zeta in *. rewrite D1, D2, D3 in *.
  pose proof (st_rel_self _ _ _ _ _ R) as X'.
  assert (nth_error (s_peers s') p = Some (set_handshake None (set_session (Some (set_txnt (le_dec (data_ctr rx)) u)) x)))
    as X'' by exact X'.
  assert (forall q, q <> p -> nth_error (s_peers s') q = nth_error (s_peers s) q) as Ot.
  { intros q N. pose proof (sr_pe _ _ _ _ _ R q) as Q. unfold pe in Q. rewrite Q.
    now rewrite (proj2 (Nat.eqb_neq p q)) by congruence. }
  exists p, x, h, u. eexists. split; [exact Hp|]. split; [exact X''|]. split; [exact Hh|].
  split; [exact Hs|]. split; [exact Hn|]. split; [exact Hu|].
  split; [eapply (mac_checked P s (p_alg x) ED_LEN rx); [exact L|exact CS]|].
  split; [exact Ht|]. split; [exists pt; exact D|]. split; [reflexivity|]. split; [reflexivity|].
  split; [exact Ot|]. split.
  - intros q k K. destruct (Nat.eq_dec q p) as [->|N].
    + pose (c0 := {| c_now := c_now c; c_coins := c_coins c; c_op := OOsk p |}).
      assert (valid c0 s) as V0. { split; [apply V|]. cbn. apply pe_lt in Hp. exact Hp. }
      pose proof (K c0 V0 eq_refl) as K1. pose proof (osk_of P s p x u Hp Hu c0 V0 eq_refl) as K2.
      rewrite K1 in K2. injection K2 as ->.
      pose proof (osk_of P s' p _ _ X'' eq_refl) as K3. exact K3.
    + intros c0 V0 Eo0. assert (valid c0 s) as V1.
      { destruct V0 as [W0 V0]. split; [exact W0|]. rewrite Eo0 in *. cbn in *.
        pose proof (sr_n _ _ _ _ _ R) as Nn. unfold npeers in Nn. lia. }
      pose proof (K c0 V1 Eo0) as K1.
      destruct (nth_error (s_peers s) q) as [y|] eqn:Y.
      2:{ apply nth_error_None in Y. destruct V1 as [_ V1]. rewrite Eo0 in V1. cbn in V1. unfold npeers in V1. lia. }
      destruct (p_session y) as [w|] eqn:W.
      * pose proof (osk_of P s q y w Y W c0 V1 Eo0) as K2. rewrite K1 in K2. injection K2 as ->.
        refine (osk_of P s' q y w _ W c0 V0 Eo0). rewrite (Ot q N). exact Y.
      * exfalso. unfold exec in K1. rewrite Eo0 in K1.
        unfold map_ok, osk, osk_with_domain_separator, bind, get_peer in K1.
        rewrite Y in K1. rewrite Y in K1. rewrite W in K1. discriminate K1.
  - intros c' tx' V' Eo'. unfold exec. rewrite Eo'.
    unfold map_ok, retransmit_handshake, apply_retransmission, get_hs, bind, get_peer.
    rewrite X''. reflexivity.
Qed.
Print Assumptions C51_acknowledgement.

Example C51_nonvacuous :
  exec Demo.P Demo.cA4 Demo.A3 = (Demo.A4, Ok (RHandled {| mr_exchanged := None; mr_resp := None |})) /\
  valid Demo.cA4 Demo.A3 /\ received Demo.cA4 = Some Demo.m4 /\ is_type x84 Demo.m4 /\
  reachable Demo.P Demo.A3.
Proof.
  split; [vm_compute; reflexivity|]. split; [Demo.okv|]. split; [reflexivity|]. split; [reflexivity|].
  exact reachA3.
Qed.
