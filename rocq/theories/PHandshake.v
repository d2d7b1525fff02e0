(** C01: an honest handshake gives both sides the same key.  C45: output keys bind their context. *)
From Verif Require Import Base ConstTime PConstTime Prims HashDomains Wire Server Protocol Wp Inv Rules Calls PollRules System Trans Spec Transcript Demo PSafety PReplay PNotice Forward PRetransmit PCookie PWire.
From Coq Require Strings.String.
Import (notations) Coq.Strings.String.
Local Open Scope list_scope.
Local Open Scope m_scope.

Section Algebra.
Context (P : prims) (C : correct P).

Lemma decrypt_encrypt a ck pt :
  decrypt_and_mix P a ck (fst (encrypt_and_mix P a ck pt)) = Some (pt, snd (encrypt_and_mix P a ck pt)).
Proof. unfold decrypt_and_mix, encrypt_and_mix. cbn [fst snd]. now rewrite (aead_correct P C). Qed.

(** The responder recovers peer and chaining key from the initiator's InitHello. *)
Lemma ih_accept_honest sA sB pB xA xB c :
  inv P sB -> s_spkm sB = skem_pk P (s_sskm sB) -> pe sB pB = Some xB ->
  p_spkt xA = s_spkm sB -> p_spkt xB = s_spkm sA -> p_psk xA = p_psk xB -> p_alg xA = p_alg xB ->
  ih_accept P sB (fst (ih_compute P sA xA c)) (p_alg xB) = inl (pB, xB, snd (ih_compute P sA xA c)).
Proof.
  intros I Kb X E1 E2 E3 E4. unfold ih_accept, handle_ih_dec, ih_compute. rewrite E1, E3, E4.
  destruct (skem_enc P (c_enc1 c) (s_spkm sB)) as [shk ct] eqn:Es.
  assert (skem_dec P (s_sskm sB) ct = shk) as D.
  { pose proof (skem_correct P C (c_enc1 c) (s_sskm sB)) as K. rewrite <- Kb, Es in K. exact K. }
  set (a := p_alg xB).
  set (ck1 := kem_mix P a _ (s_spkm sB) shk ct).
  pose proof (decrypt_encrypt a ck1 (peer_id P a (s_spkm sA))) as D1.
  destruct (encrypt_and_mix P a ck1 (peer_id P a (s_spkm sA))) as [pidct ck2].
  cbn [fst snd] in D1.
  pose proof (decrypt_encrypt a (ck_mix P a (ck_mix P a ck2 (s_spkm sA)) (p_psk xB)) []) as D2.
  destruct (encrypt_and_mix P a (ck_mix P a (ck_mix P a ck2 (s_spkm sA)) (p_psk xB)) []) as [au ck3].
  cbn [fst snd] in *. cbn [ih_sidi ih_epki ih_sctr ih_pidi_ct ih_auth]. rewrite D.
  fold ck1. rewrite D1.
  pose proof (i_peer2 P sB I pB xB X) as F. unfold pidt in F. rewrite E2 in F.
  change (ix sB (KPeer (peer_id P a (s_spkm sA))) = Some pB) in F. unfold find_peer. unfold ix in F.
  rewrite F, X, E2, D2. reflexivity.
Qed.

(** The chaining key both sides have before the responder's confirmation tag. *)
Definition joint (a : halg) (ck bct sidi sidr : bytes) : bytes :=
  ck_mix P a (ck_mix P a (snd (encrypt_and_mix P a (ck_mix P a ck bct) [])) sidi) sidr.

Lemma rh_compute_honest now c sA sB xB h ih :
  s_spkm sA = skem_pk P (s_sskm sA) -> p_spkt xB = s_spkm sA ->
  (exists r, hs_eski h = fst (ekem_gen P r) /\ hs_epki h = snd (ekem_gen P r)) ->
  ih_epki ih = hs_epki h -> 
  let a := hc_alg (hs_cor h) in
  let ck := hc_ck (hs_cor h) in
  let core := rh_core P ih a c xB ck in
  let bct := biscuit_ct P now c sB xB core in
  let e := encrypt_and_mix P a (joint a (hc_ck core) bct (ih_sidi ih) (c_sid c)) [] in
  handle_rh_compute P sA h (rh_of P now c sB xB ih a ck) =
  Some ({| ic_sidi := ih_sidi ih; ic_sidr := c_sid c; ic_biscuit := bct; ic_auth := fst e |},
        {| hc_sidi := hc_sidi (hs_cor h); hc_sidr := c_sid c; hc_ck := snd e; hc_alg := a |}).
Proof.
  intros Ka E (r & G1 & G2) Ee a ck core bct e. unfold handle_rh_compute, rh_of. fold a ck core bct.
  cbn [rh_sidr rh_sidi rh_ecti rh_scti rh_auth rh_biscuit].
  assert (ekem_dec P (hs_eski h) (snd (ekem_enc P (c_enc1 c) (ih_epki ih))) =
          fst (ekem_enc P (c_enc1 c) (ih_epki ih))) as D1.
  { rewrite Ee, G1, G2. apply (ekem_correct P C). }
  assert (skem_dec P (s_sskm sA) (snd (skem_enc P (c_enc2 c) (p_spkt xB))) =
          fst (skem_enc P (c_enc2 c) (p_spkt xB))) as D2.
  { rewrite E, Ka. apply (skem_correct P C). }
  rewrite D1, D2, <- Ee, <- E. change (kem_mix P a _ (p_spkt xB) _ _) with (hc_ck core).
  rewrite decrypt_encrypt. fold (joint a (hc_ck core) bct (ih_sidi ih) (c_sid c)).
  subst e. destruct (encrypt_and_mix P a (joint a (hc_ck core) bct (ih_sidi ih) (c_sid c)) []).
  reflexivity.
Qed.

Lemma ic_accept_honest now c sB sB' pB xB xB' core :
  inv P sB' -> pe sB' pB = Some xB' -> pidt P xB' = pidt P xB -> p_alg xB' = p_alg xB ->
  hc_alg core = p_alg xB -> length (hc_ck core) = 32 ->
  s_spkm sB' = s_spkm sB -> wf_coins c -> length (s_bctr sB) = 12 ->
  let bct := biscuit_ct P now c sB xB core in
  cs_value (get_bk (nonce_slot bct) sB') = cs_value (get_bk (nonce_slot bct) (after_biscuit now c sB)) ->
  (le_dec (p_biscuit_used xB') < le_dec (s_bctr sB))%N ->
  let a := p_alg xB in
  let e := encrypt_and_mix P a (joint a (hc_ck core) bct (hc_sidi core) (hc_sidr core)) [] in
  ic_accept P sB' {| ic_sidi := hc_sidi core; ic_sidr := hc_sidr core; ic_biscuit := bct; ic_auth := fst e |} a =
  inl (pB, xB', s_bctr sB,
       {| hc_sidi := hc_sidi core; hc_sidr := hc_sidr core; hc_ck := snd e; hc_alg := a |}).
Proof.
  intros I X Ep Ea Ec Lk Epk (W1 & W2 & W3) Lb bct K Hn a e.
  assert (nonce_slot bct = biscuit_slot now c sB) as Sl.
  { unfold bct, biscuit_ct, xenc. apply tag_slot. intros Z. rewrite Z in W2. discriminate. }
  unfold ic_accept. cbn [ic_sidi ic_sidr ic_biscuit ic_auth]. rewrite K, Sl.
  set (pt := ser_bi {| bi_pidi := pidt P xB; bi_no := s_bctr sB; bi_ck := hc_ck core |}).
  assert (xdec P (cs_value (get_bk (biscuit_slot now c sB) (after_biscuit now c sB)))
            (biscuit_ad P a (s_spkm sB') (hc_sidi core) (hc_sidr core)) bct = Some pt) as D.
  { rewrite Epk. unfold bct, biscuit_ct. apply xdec_xenc; auto. now rewrite tag_nonce_len. }
  rewrite D. unfold pt. rewrite parse_ser_bi.
  2:{ repeat split; cbn [bi_pidi bi_no bi_ck]; auto. apply pidt_len. }
  cbn [bi_pidi bi_no bi_ck].
  pose proof (i_peer2 P sB' I pB xB' X) as F. rewrite Ep in F. unfold ix in F. unfold find_peer.
  rewrite F, X, Ea. fold a. unfold handle_ic_ck. cbn [hc_alg hc_ck ic_sidi ic_sidr ic_auth].
  subst e. unfold joint.
  destruct (encrypt_and_mix P a (ck_mix P a (hc_ck core) bct) []) as [t ck0]. cbn [snd].
  rewrite decrypt_encrypt. rewrite (proj2 (N.leb_gt _ _)) by exact Hn. reflexivity.
Qed.
End Algebra.

Section Forward.
Context (P : prims).

Lemma payload_of x t n payload tx : length payload = n -> n + 36 <= length tx ->
  env_payload n (commit_msg P x t n payload tx) = payload.
Proof.
  intros L T. unfold env_payload. pose proof (commit_slice P x t n payload tx 0 n L T) as E.
  rewrite Nat.add_0_r in E. rewrite E by lia. unfold slice. cbn [skipn]. now rewrite <- L, firstn_all.
Qed.

Lemma sealed_to x t n payload tx s : length payload = n -> n + 36 <= length tx ->
  p_spkt x = s_spkm s -> check_seal P s (p_alg x) n (commit_msg P x t n payload tx) = true.
Proof.
  intros L T E. apply mac_checks; [now apply commit_msg_len|]. rewrite <- E. now apply commit_sealed.
Qed.

Lemma handle_msg_typed now c rx tx t : first_type rx = Some t -> 1100 <= length tx ->
  handle_msg P now c rx tx =
  match t with
  | MInitHello => msg_init_hello P now c rx tx
  | MRespHello => msg_resp_hello P now c rx tx
  | MInitConf => msg_init_conf P now rx tx
  | MEmptyData => msg_empty_data P rx
  | MCookieReply => msg_cookie_reply P now rx
  end.
Proof.
  unfold first_type, handle_msg. destruct rx; [discriminate|]. intros -> T.
  now rewrite leb_ltb_false by exact T.
Qed.

Lemma resp_hello_accepted now c rx tx s p x h ic core :
  inv P s -> 1100 <= length tx -> first_type rx = Some MRespHello -> length rx = 1100 ->
  let rh := parse_rh (env_payload RH_LEN rx) in
  ix s (KSid (rh_sidi rh)) = Some p -> pe s p = Some x -> p_handshake x = Some h ->
  hs_sid h = rh_sidi rh -> hs_next h = ExpRespHello ->
  handle_rh_compute P s h rh = Some (ic, core) ->
  check_seal P s (p_alg x) RH_LEN rx = true ->
  exists s2, handle_msg P now c rx tx s = (s2, Ok (handled (Some p) (Some (ic_msg P now x h core ic tx)))) /\
    st_rel s s2 p (set_handshake (Some (stored now c (ic_msg P now x h core ic tx) (erased h)))
                     (rh_peer P now x h core))
      (ix_add (ix_ses_take (ix s) x) (hs_sid h) p).
Proof.
  intros I T FT L rh Hi Hp Hh Hs Hn Hc CS.
  enough (wp (handle_msg P now c rx tx) (fun s2 r =>
    r = Ok (handled (Some p) (Some (ic_msg P now x h core ic tx))) /\
    st_rel s s2 p (set_handshake (Some (stored now c (ic_msg P now x h core ic tx) (erased h)))
                     (rh_peer P now x h core))
      (ix_add (ix_ses_take (ix s) x) (hs_sid h) p)) s) as W.
  { unfold wp in W. destruct W as [W1 W2]. exists (fst (handle_msg P now c rx tx s)).
    split; [rewrite <- W1; apply surjective_pairing|exact W2]. }
  pose proof (handle_rh_compute_sidi P _ _ _ _ _ Hc) as (S1 & S2 & _).
  rewrite (handle_msg_typed now c rx tx _ FT T). unfold msg_resp_hello. fstep. fstep. fstep.
  unfold handle_resp_hello. fold rh. fstep. eapply wp_eq; [eapply lookup_handshake_hit; eauto|].
  cbv beta iota. fstep. fstep. fstep. fstep. fstep. eapply wp_unwrap; [exact Hh|]. cbv beta iota.
  rewrite Hn. fstep. fstep. fstep. fstep. fstep.
  eapply wp_ses_insert; [exact Hp| |].
  - intros s1 _ R1. cbv beta iota. pose proof (st_rel_self _ _ _ _ _ R1) as Hp1.
    fstep. fstep. fstep. eapply wp_unwrap; [exact Hh|]. cbv beta iota.
    fstep. eapply wp_put_hs; [exact Hp1|]. cbv beta iota. fstep.
    assert (st_rel s (with_peer p (rh_peer P now x h core) s1) p (rh_peer P now x h core)
              (ix_add (ix_ses_take (ix s) x) (hs_sid h) p)) as R2.
    { eapply st_rel_trans; [exact R1|]. eapply st_rel_ext.
      - eapply with_peer_rel. exact Hp1.
      - intros k. rewrite (sr_ix _ _ _ _ _ R1). cbn [se_sidm enter_live]. now rewrite S1. }
    change (set_handshake (Some (set_core ExpRespConf _ h)) _) with (rh_peer P now x h core).
    set (s2 := with_peer p (rh_peer P now x h core) s1) in *.
    pose proof (st_rel_self _ _ _ _ _ R2) as Hp2.
    fstep. fstep. fstep. fstep. fstep.
    apply wp_ensure_true.
    { unfold check_seal. rewrite (rest_pk s s2 (sr_rest _ _ _ _ _ R2)). exact CS. }
    cbv beta iota. fstep. eapply wp_store_msg; [exact Hp2|reflexivity|]. cbv beta iota. fstep.
    split; [reflexivity|]. eapply st_rel_trans; [exact R2|]. eapply st_rel_ext.
    + eapply with_peer_rel. exact Hp2.
    + intros k. now rewrite (sr_ix _ _ _ _ _ R2).
  - intros s1 q Nq E _. exfalso. cbn [se_sidm enter_live] in E. rewrite S1 in E.
    rewrite (ses_take_keeps s p x h Hh) in E by congruence. congruence.
Qed.

Lemma init_conf_accepted now c rx tx s p x bno core a :
  inv P s -> 1100 <= length tx -> first_type rx = Some MInitConf -> length rx = 176 ->
  ix s (KKnown (known_hash P s rx)) = None ->
  let ic := parse_ic (env_payload IC_LEN rx) in
  (a = Blake -> exists e, ic_accept P s ic Shake = inr e) ->
  ic_accept P s ic a = inl (p, x, bno, core) -> p_alg x = a ->
  (forall q, ix s (KSid (ic_sidr ic)) = Some q -> q = p) ->
  check_seal P s a IC_LEN rx = true ->
  let u := ic_session P now x core in
  exists s2 x2, handle_msg P now c rx tx s =
    (s2, Ok (handled (Some p) (Some (commit_msg P x2 MEmptyData ED_LEN (ser_ed (rc_of P u)) tx)))) /\
    pe s2 p = Some x2 /\ p_session x2 = Some (set_txnm 1 u) /\ p_alg x2 = p_alg x /\ p_ds x2 = p_ds x /\
    p_spkt x2 = p_spkt x.
Proof.
  intros I T FT L Hk ic Hb Ha Ea Hq CS u.
  enough (wp (handle_msg P now c rx tx) (fun s2 r => exists x2,
    r = Ok (handled (Some p) (Some (commit_msg P x2 MEmptyData ED_LEN (ser_ed (rc_of P u)) tx))) /\
    pe s2 p = Some x2 /\ p_session x2 = Some (set_txnm 1 u) /\ p_alg x2 = p_alg x /\ p_ds x2 = p_ds x /\
    p_spkt x2 = p_spkt x) s) as W.
  { unfold wp in W. destruct W as (x2 & W1 & W2). exists (fst (handle_msg P now c rx tx s)), x2.
    split; [rewrite <- W1; apply surjective_pairing|exact W2]. }
  rewrite (handle_msg_typed now c rx tx _ FT T). unfold msg_init_conf. fstep. fstep. fstep. fstep.
  fold (ix s (KKnown (known_hash P s rx))). rewrite Hk. fstep.
  pose proof (wf_rx_ic rx L) as WF. fold ic in WF.
  set (Q := fun s2 (r : res err msg_result) => exists x2,
    r = Ok (handled (Some p) (Some (commit_msg P x2 MEmptyData ED_LEN (ser_ed (rc_of P u)) tx))) /\
    pe s2 p = Some x2 /\ p_session x2 = Some (set_txnm 1 u) /\ p_alg x2 = p_alg x /\ p_ds x2 = p_ds x /\
    p_spkt x2 = p_spkt x).
  assert (forall q, ix_ses_take (ix s) x (KSid (ic_sidr ic)) = Some q -> q = p) as Hq'.
  { intros q. unfold ix_ses_take, ix_drop. destruct (p_session x) as [v|]; [|apply Hq].
    destruct (hs_has_id _ _); [apply Hq|]. destruct (ikey_eqb _ _); [discriminate|apply Hq]. }
  assert (forall s1, st_rel s s1 p (ic_peer P now x bno core) (ix_ic (ix s) x u p) -> good P s s1 ->
    wp (verify_hash_choice p a ;;; s0 <- get ;; ensure (check_seal P s0 a IC_LEN rx) ESeal ;;;
        known_insert p {| kr_received := now; kr_mac := known_hash P s0 rx;
          kr_response := firstn 4 tx ++ ser_ed (rc_of P u) ++ slice (4 + ED_LEN) 32 tx |} ;;;
        x0 <- get_peer p ;;
        ret {| mr_exchanged := Some p;
               mr_resp := Some (commit_msg P x0 MEmptyData ED_LEN (ser_ed (rc_of P u)) tx) |}) Q s1) as K.
  { intros s1 R G. pose proof (st_rel_self _ _ _ _ _ R) as X1.
    fstep. unfold verify_hash_choice. fstep. fstep. apply wp_ensure_true; [now apply halg_eqb_eq|]. cbv beta iota.
    fstep. fstep. fstep. apply wp_ensure_true.
    { unfold check_seal. rewrite (ev_pk _ _ (g_evo _ _ _ G)). exact CS. }
    cbv beta iota. fstep. eapply wp_known_insert; [exact X1| |].
    - intros v Hv. erewrite (i_known2 P s1); [discriminate|apply G|exact X1|exact Hv].
    - intros s2 R2. cbv beta iota. pose proof (st_rel_self _ _ _ _ _ R2) as X2. fstep. fstep. fstep.
      eexists. split; [reflexivity|]. split; [exact X2|]. split; [reflexivity|].
      split; [reflexivity|]. split; reflexivity. }
  apply wp_try_hashes. apply wp_handle_init_conf; auto.
  - intros e E. fold ic in E. destruct a; [congruence|]. cbv beta iota.
    apply wp_handle_init_conf; auto.
    + intros e' E'. fold ic in E'. congruence.
    + intros p0 x0 bno0 core0 s' q E' Nq Eq _ _. fold ic in E', Eq. exfalso. apply Nq.
      rewrite E' in Ha. injection Ha as -> -> -> ->. now apply Hq'.
    + intros p0 x0 bno0 core0 s' E' _ R G. fold ic in E'.
      rewrite E' in Ha. injection Ha as -> -> -> ->. cbv beta iota. now apply K.
  - intros p0 x0 bno0 core0 s' q E' Nq Eq _ _. fold ic in E', Eq. exfalso.
    destruct a; [|destruct (Hb eq_refl) as [e He]; congruence].
    apply Nq. rewrite E' in Ha. injection Ha as -> -> -> ->. now apply Hq'.
  - intros p0 x0 bno0 core0 s' E' _ R G. fold ic in E'. cbv beta iota.
    destruct a; [|destruct (Hb eq_refl) as [e He]; congruence].
    rewrite E' in Ha. injection Ha as -> -> -> ->. now apply K.
Qed.
End Forward.

(** * C01 *)

(** The message a call handed out. *)
Definition message (r : res err outcome) : bytes :=
  match r with
  | Ok (RSent m) => m
  | Ok (RHandled {| mr_resp := Some m |}) => m
  | _ => []
  end.

(** A server whose public key belongs to its secret key. *)
Definition genuine (P : prims) (s : srv) : Prop := s_spkm s = skem_pk P (s_sskm s).

(** The two servers know each other, under the handles [pA] and [pB], with the same pre-shared
    key, protocol version and output key domain. *)
Definition configured (sA : srv) (pA : nat) (sB : srv) (pB : nat) : Prop :=
  exists xA xB, nth_error (s_peers sA) pA = Some xA /\ nth_error (s_peers sB) pB = Some xB /\
    p_spkt xA = s_spkm sB /\ p_spkt xB = s_spkm sA /\
    p_psk xA = p_psk xB /\ p_alg xA = p_alg xB /\ p_ds xA = p_ds xB.

Definition version (s : srv) (p : nat) (a : halg) : Prop :=
  exists x, nth_error (s_peers s) p = Some x /\ p_alg x = a.

(** No session and no handshake of the server has this id. *)
Definition sid_unused (s : srv) (id : bytes) : Prop :=
  idx_get (KSid id) (s_index s) = None /\
  forall p x, nth_error (s_peers s) p = Some x ->
    (forall u, p_session x = Some u -> se_sidm u <> id) /\
    (forall h, p_handshake x = Some h -> hc_sidi (hs_cor h) <> id).

(** The handshake initiated with [p] is still pending, with the same secrets. *)
Definition still_pending (s s' : srv) (p : nat) : Prop :=
  exists x x' h h', nth_error (s_peers s) p = Some x /\ nth_error (s_peers s') p = Some x' /\
    p_handshake x = Some h /\ p_handshake x' = Some h' /\
    hs_next h' = hs_next h /\ hs_cor h' = hs_cor h /\ hs_eski h' = hs_eski h /\
    hs_epki h' = hs_epki h /\ idx_get (KSid (hc_sidi (hs_cor h'))) (s_index s') = Some p.
Definition same_session (s s' : srv) (p : nat) : Prop :=
  option_map p_session (nth_error (s_peers s') p) = option_map p_session (nth_error (s_peers s) p).

(** [osk] for the peer gives [k]. *)
Definition key_at (P : prims) (s : srv) (p : nat) (k : bytes) : Prop :=
  forall c, valid c s -> c_op c = OOsk p -> exec P c s = (s, Ok (RKey k)).

(** The number of the last biscuit the server accepted from the peer. *)
Definition last_used (s : srv) (p : nat) : N :=
  match nth_error (s_peers s) p with Some x => le_dec (p_biscuit_used x) | None => 0%N end.

Section Steps.
Context (P : prims) (C : correct P).

Lemma osk_of s p x u : nth_error (s_peers s) p = Some x -> p_session x = Some u ->
  key_at P s p (hmix P (se_alg u) (se_ck u) (ds_compress P (p_alg x) (p_ds x))).
Proof.
  intros X U c V Eo. unfold exec. rewrite Eo. unfold map_ok, osk, osk_with_domain_separator, bind, get_peer.
  rewrite X. rewrite X. rewrite U. reflexivity.
Qed.

Lemma initiated s c p tx x s1 r : inv P s -> valid c s -> c_op c = OInitiate p tx ->
  exec P c s = (s1, r) -> nth_error (s_peers s) p = Some x -> sid_unused s (c_sid (c_coins c)) ->
  r = Ok (RSent (ih_msg P (c_now c) (c_coins c) s x tx)) /\
  st_rel s s1 p
      (ins_hs (stored (c_now c) (c_coins c) (ih_msg P (c_now c) (c_coins c) s x tx)
                      (ini_hs P (c_now c) (c_coins c) s x)) x)
      (ix_hs_take (ix_add (ix s) (c_sid (c_coins c)) p) x) /\
  ix s1 (KSid (c_sid (c_coins c))) = Some p.
Proof.
  intros I V Eo E X (U1 & U2). pose proof (exec_step P c s s1 r I V E) as S.
  destruct S; try congruence.
  - assert (p0 = p) by congruence. subst p0. unfold ix in *. congruence.
  - assert (p0 = p) by congruence. subst p0. assert (tx0 = tx) by congruence. subst tx0.
    assert (x0 = x) by (unfold pe in *; congruence). subst x0. split; [reflexivity|]. split; [assumption|].
    match goal with R : st_rel _ _ _ _ _ |- _ => rewrite (sr_ix _ _ _ _ _ R) end.
    unfold ix_hs_take. destruct (p_handshake x) as [h|] eqn:Eh.
    + destruct (U2 p x X) as [_ N]. specialize (N h Eh). unfold ix_drop, ix_add.
      rewrite ikey_eqb_refl. destruct (ses_has_id _ _); auto.
      destruct (ikey_eqb (KSid _) (KSid (hs_sid h))) eqn:Ek; auto.
      apply ikey_eqb_eq in Ek. injection Ek as Ek. exfalso. apply N. symmetry. exact Ek.
    + unfold ix_add. now rewrite ikey_eqb_refl.
Qed.
End Steps.

Section Main.
Context (P : prims) (C : correct P).

Lemma exec_of_msg c rx tx s s' o m : c_op c = OMsg rx tx ->
  handle_msg P (c_now c) (c_coins c) rx tx s = (s', Ok (handled o m)) ->
  exec P c s = (s', Ok (RHandled {| mr_exchanged := o; mr_resp := m |})).
Proof. intros Eo E. unfold exec. rewrite Eo. unfold map_ok, bind. rewrite E. reflexivity. Qed.

Lemma ih_accept_refused s m : length m = 1060 ->
  (forall pid pk psk, ~ hello_authentic P s Shake m pid pk psk) ->
  exists e, ih_accept P s (parse_ih (env_payload IH_LEN m)) Shake = inr e.
Proof.
  intros L H. destruct (ih_accept P s _ Shake) as [[[p x] ck]|e] eqn:E; [|eauto].
  destruct (ih_accept_authentic P s m Shake p x ck L E) as (pid & A & _). now apply H in A.
Qed.

Lemma ic_accept_refused s m :
  (forall pt, ~ biscuit_opens P Shake (s_spkm s) (named_key s (conf_biscuit m)) (conf_sidi m)
      (conf_sidr m) (conf_biscuit m) pt) ->
  exists e, ic_accept P s (parse_ic (env_payload IC_LEN m)) Shake = inr e.
Proof.
  intros H. unfold ic_accept. destruct (conf_parse m) as (E1 & E2 & E3).
  rewrite E1, E2, E3, <- named_key_slot.
  destruct (xdec P _ _ _) as [pt|] eqn:D; [|eauto]. now apply H in D.
Qed.
End Main.

(** The five messages of a handshake, with anything happening at both servers in between that
    leaves the pending handshake, the biscuit key and the session in place.  Conditions that
    only fail by a collision of random values or a forged message are spelled out. *)
Theorem C01_honest_handshake : forall P sA sB pA pB
    cA1 txA1 sA1 r1  cB1 txB1 sB1 r2  hA sA2 cA2 txA2 sA3 r3
    hB sB2 cB2 txB2 sB3 r4  hA' sA4 cA3 txA3 sA5 r5,
  correct P -> reachable P sA -> reachable P sB -> genuine P sA -> genuine P sB ->
  configured sA pA sB pB ->
  (* A initiates, with a session id that is not in use *)
  valid cA1 sA -> c_op cA1 = OInitiate pA txA1 -> exec P cA1 sA = (sA1, r1) ->
  sid_unused sA (c_sid (c_coins cA1)) ->
  (* B gets the InitHello; in the old protocol version it must not be valid in the new one too *)
  valid cB1 sB -> c_op cB1 = OMsg (message r1) txB1 -> exec P cB1 sB = (sB1, r2) ->
  (version sB pB Blake -> forall pid pk psk, ~ hello_authentic P sB Shake (message r1) pid pk psk) ->
  (* A gets the RespHello while the handshake is pending *)
  run P sA1 hA sA2 -> still_pending sA1 sA2 pA ->
  valid cA2 sA2 -> c_op cA2 = OMsg (message r2) txA2 -> exec P cA2 sA2 = (sA3, r3) ->
  (* B gets the InitConf while it has the biscuit key and has not used the biscuit or a later one *)
  run P sB1 hB sB2 ->
  named_key sB2 (resp_biscuit (message r2)) = named_key sB1 (resp_biscuit (message r2)) ->
  (last_used sB2 pB < le_dec (s_bctr sB))%N ->
  (forall q, idx_get (KSid (c_sid (c_coins cB1))) (s_index sB2) = Some q -> q = pB) ->
  idx_get (KKnown (known_hash P sB2 (message r3))) (s_index sB2) = None ->
  (version sB pB Blake -> forall pt, ~ biscuit_opens P Shake (s_spkm sB2)
     (named_key sB2 (resp_biscuit (message r2))) (conf_sidi (message r3)) (conf_sidr (message r3))
     (resp_biscuit (message r2)) pt) ->
  valid cB2 sB2 -> c_op cB2 = OMsg (message r3) txB2 -> exec P cB2 sB2 = (sB3, r4) ->
  (* A gets the EmptyData *)
  run P sA3 hA' sA4 -> still_pending sA3 sA4 pA -> same_session sA3 sA4 pA ->
  valid cA3 sA4 -> c_op cA3 = OMsg (message r4) txA3 -> exec P cA3 sA4 = (sA5, r5) ->
  (exists m1 m2 m3 m4,
     r1 = Ok (RSent m1) /\
     r2 = Ok (RHandled {| mr_exchanged := None; mr_resp := Some m2 |}) /\
     r3 = Ok (RHandled {| mr_exchanged := Some pA; mr_resp := Some m3 |}) /\
     r4 = Ok (RHandled {| mr_exchanged := Some pB; mr_resp := Some m4 |}) /\
     r5 = Ok (RHandled {| mr_exchanged := None; mr_resp := None |}) /\
     is_type x81 m1 /\ is_type x82 m2 /\ is_type x83 m3 /\ is_type x84 m4) /\
  (exists k, key_at P sA3 pA k /\ key_at P sB3 pB k /\ key_at P sA5 pA k) /\
  (forall c tx, valid c sA5 -> c_op c = ORetransmit pA tx -> exec P c sA5 = (sA5, Err ENoHandshake)).
Proof.
  intros P sA sB pA pB cA1 txA1 sA1 r1 cB1 txB1 sB1 r2 hA sA2 cA2 txA2 sA3 r3
    hB sB2 cB2 txB2 sB3 r4 hA' sA4 cA3 txA3 sA5 r5
    C RA RB GA GB (xA & xB & XA & XB & K1 & K2 & K3 & K4 & K5)
    V1 O1 E1 U1 V2 O2 E2 N2 Rn1 SP1 V3 O3 E3 Rn2 NK LU SI KH N4 V4 O4 E4 Rn3 SP2 SS V5 O5 E5.
  pose proof (reachable_inv P _ RA) as IA. pose proof (reachable_inv P _ RB) as IB.
  destruct (initiated P sA cA1 pA txA1 xA sA1 r1 IA V1 O1 E1 XA U1) as (-> & R1 & Ix1).
  destruct V1 as [W1 T1]. rewrite O1 in T1. destruct T1 as [T1 T1'].
  set (now1 := c_now cA1) in *. set (cn1 := c_coins cA1) in *.
  set (m1 := ih_msg P now1 cn1 sA xA txA1) in *. cbn [message] in *.
  set (ih := fst (ih_compute P sA xA cn1)). set (ck1 := snd (ih_compute P sA xA cn1)).
  assert (wf_ih ih) as WI by (apply ih_compute_wf; exact W1).
  assert (length (ser_ih ih) = IH_LEN) as LI by (apply ser_ih_len; exact WI).
  assert (IH_LEN + 36 <= length txA1) as TI by (unfold IH_LEN; lia).
  assert (length m1 = 1060) as L1 by (exact (commit_msg_len P _ MInitHello IH_LEN _ _ LI TI)).
  assert (is_type x81 m1) as Ty1 by (exact (commit_type P _ MInitHello IH_LEN _ _ LI TI)).
  assert (parse_ih (env_payload IH_LEN m1) = ih) as Pa1.
  { unfold m1, ih_msg. rewrite (payload_of P _ MInitHello IH_LEN _ _ LI TI). now apply parse_ser_ih. }
  assert (inv P sA1) as IA1 by (eapply exec_inv; [exact IA| |exact E1]; split; [exact W1|]; rewrite O1; auto).
  (* B: InitHello *)
  assert (ih_accept P sB ih (p_alg xB) = inl (pB, xB, ck1)) as Acc by (now apply ih_accept_honest).
  destruct V2 as [W2 T2]. rewrite O2 in T2.
  set (now2 := c_now cB1) in *. set (cn2 := c_coins cB1) in *.
  set (m2 := rh_msg P now2 cn2 sB xB ih (p_alg xB) ck1 txB1).
  assert (exec P cB1 sB = (after_biscuit now2 cn2 sB,
            Ok (RHandled {| mr_exchanged := None; mr_resp := Some m2 |}))) as E2'.
  { eapply exec_of_msg; [exact O2|]. rewrite (handle_msg_typed P _ _ _ _ MInitHello (first_type_of _ _ Ty1) T2).
    rewrite msg_init_hello_eq by exact IB. cbn zeta. rewrite L1. change (1060 =? env_len IH_LEN) with true.
    cbv iota. rewrite Pa1.
    assert (ih_try P sB ih = Some (pB, xB, ck1, p_alg xB)) as Tr.
    { unfold ih_try. destruct (p_alg xB) eqn:Ea; [now rewrite Acc|].
      destruct (ih_accept_refused P sB m1 L1) as [e He].
      - apply N2. exists xB. auto.
      - rewrite Pa1 in He. now rewrite He, Acc. }
    rewrite Tr, (proj2 (halg_eqb_eq _ _) eq_refl). cbn [negb].
    assert (check_seal P sB (p_alg xB) IH_LEN m1 = true) as CS.
    { rewrite <- K4. exact (sealed_to P (ins_hs (ini_hs P now1 cn1 sA xA) xA) MInitHello IH_LEN _ _ sB LI TI K1). }
    now rewrite CS. }
  rewrite E2' in E2. injection E2 as <- <-. cbn [message] in *. clear E2'.
  set (sB1 := after_biscuit now2 cn2 sB) in *.
  set (rh := rh_of P now2 cn2 sB xB ih (p_alg xB) ck1).
  assert (wf_rh rh) as WR by (apply rh_of_wf; [exact W2|apply WI|apply (i_bctr P sB IB)]).
  assert (length (ser_rh rh) = RH_LEN) as LR by (apply ser_rh_len; exact WR).
  assert (RH_LEN + 36 <= length txB1) as TR by exact T2.
  assert (length m2 = 1100) as L2 by (exact (commit_msg_len P _ MRespHello RH_LEN _ _ LR TR)).
  assert (is_type x82 m2) as Ty2 by (exact (commit_type P _ MRespHello RH_LEN _ _ LR TR)).
  assert (parse_rh (env_payload RH_LEN m2) = rh) as Pa2.
  { unfold m2, rh_msg. rewrite (payload_of P _ MRespHello RH_LEN _ _ LR TR). now apply parse_ser_rh. }
  (* A: RespHello *)
  pose proof (run_inv P _ _ _ IA1 Rn1) as IA2.
  assert (evo sA sA2) as Ev2.
  { eapply evo_trans; [eapply exec_evo; [exact IA| |exact E1]; split; [exact W1|]; rewrite O1; auto|].
    eapply System.run_evo; eauto. }
  destruct SP1 as (xa1 & xa2 & h1 & h2 & Xa1 & Xa2 & H1 & H2 & SPn & SPc & SPs & SPp & SPi).
  pose proof (st_rel_self _ _ _ _ _ R1) as Xa1'. unfold pe in Xa1'. rewrite Xa1 in Xa1'.
  injection Xa1' as ->. cbn [p_handshake ins_hs] in H1. injection H1 as <-.
  cbn [stored set_retry set_tx ini_hs hs_next hs_cor hs_eski hs_epki] in SPn, SPc, SPs, SPp.
  destruct (ev_pe _ _ Ev2 pA xA XA) as (xa2' & Xa2' & PE2). unfold pe in Xa2'. rewrite Xa2 in Xa2'.
  injection Xa2' as <-.
  destruct V3 as [W3 T3]. rewrite O3 in T3.
  set (now3 := c_now cA2) in *. set (cn3 := c_coins cA2) in *.
  set (core := rh_core P ih (p_alg xB) cn2 xB ck1).
  set (bct := biscuit_ct P now2 cn2 sB xB core).
  set (ef := encrypt_and_mix P (p_alg xB) (joint P (p_alg xB) (hc_ck core) bct (ih_sidi ih) (c_sid cn2)) []).
  set (ic := {| ic_sidi := ih_sidi ih; ic_sidr := c_sid cn2; ic_biscuit := bct; ic_auth := fst ef |}).
  set (coreA := {| hc_sidi := ih_sidi ih; hc_sidr := c_sid cn2; hc_ck := snd ef; hc_alg := p_alg xB |}).
  assert (ih_sidi ih = c_sid cn1) as Si by apply ih_compute_sid.
  assert (handle_rh_compute P sA2 h2 rh = Some (ic, coreA)) as HC.
  { assert (hc_alg (hs_cor h2) = p_alg xB) as A1 by (rewrite SPc; exact K4).
    assert (hc_ck (hs_cor h2) = ck1) as A2 by (rewrite SPc; reflexivity).
    pose proof (rh_compute_honest P C now2 cn2 sA2 sB xB h2 ih) as HH.
    cbn zeta in HH. rewrite A1, A2 in HH. unfold rh, ic, coreA, ef, bct, core.
    rewrite HH.
    - rewrite SPc. cbn [hc_sidi]. now rewrite Si.
    - rewrite (ev_pk _ _ Ev2), (ev_sk _ _ Ev2). exact GA.
    - rewrite (ev_pk _ _ Ev2). exact K2.
    - exists (c_kp cn1). split; [exact SPs|exact SPp].
    - rewrite SPp. unfold ih, ih_compute. destruct (skem_enc P (c_enc1 cn1) (p_spkt xA)). reflexivity. }
  assert (rh_sidi rh = ih_sidi ih) as Sr by reflexivity.
  assert (hs_sid h2 = ih_sidi ih) as Sh by (unfold hs_sid; rewrite SPc; now rewrite Si).
  pose proof (first_type_of _ _ Ty2) as FT2.
  destruct (resp_hello_accepted P now3 cn3 m2 txA2 sA2 pA xa2 h2 ic coreA) as (s3 & Em3 & R3); auto.
  { rewrite Pa2, Sr, <- Sh. exact SPi. }
  { now rewrite Pa2, Sr. }
  { now rewrite Pa2. }
  { rewrite (pv_alg _ _ PE2), K4. unfold m2, rh_msg. apply sealed_to; auto.
    rewrite (ev_pk _ _ Ev2). exact K2. }
  set (m3 := ic_msg P now3 xa2 h2 coreA ic txA2) in *.
  rewrite (exec_of_msg P cA2 m2 txA2 sA2 s3 (Some pA) (Some m3) O3 Em3) in E3.
  injection E3 as -> <-. cbn [message] in *.
  assert (wf_ic ic) as WC.
  { eapply (wf_ic_of P rh h2 sA2); [exact WR|exact HC]. }
  assert (length (ser_ic ic) = IC_LEN) as LC by (apply ser_ic_len; exact WC).
  assert (IC_LEN + 36 <= length txA2) as TC by (unfold IC_LEN; lia).
  assert (length m3 = 176) as L3 by (exact (commit_msg_len P _ MInitConf IC_LEN _ _ LC TC)).
  assert (is_type x83 m3) as Ty3 by (exact (commit_type P _ MInitConf IC_LEN _ _ LC TC)).
  assert (parse_ic (env_payload IC_LEN m3) = ic) as Pa3.
  { unfold m3, ic_msg. rewrite (payload_of P _ MInitConf IC_LEN _ _ LC TC). now apply parse_ser_ic. }
  (* B: InitConf *)
  assert (inv P sB1 /\ evo sB sB1) as (IB1 & EvB1).
  { pose proof (after_biscuit_good P now2 cn2 sB IB) as G. split; apply G. }
  pose proof (run_inv P _ _ _ IB1 Rn2) as IB2.
  assert (evo sB sB2) as EvB by (eapply evo_trans; [exact EvB1|]; eapply System.run_evo; eauto).
  destruct (ev_pe _ _ EvB pB xB XB) as (xb2 & Xb2 & PB2).
  destruct V4 as [W4 T4]. rewrite O4 in T4.
  set (now4 := c_now cB2) in *. set (cn4 := c_coins cB2) in *.
  assert (resp_biscuit m2 = bct) as Bi.
  { pose proof (resp_parse m2) as (_ & _ & _ & _ & _ & Q6). now rewrite <- Q6, Pa2. }
  assert (conf_biscuit m3 = bct) as Bi3 by (destruct (conf_parse m3) as (_ & _ & Q); now rewrite <- Q, Pa3).
  rewrite Bi in NK, N4.
  assert (pidt P xb2 = pidt P xB) as Pid by (unfold pidt; now rewrite (pv_alg _ _ PB2), (pv_spkt _ _ PB2)).
  assert (ic_accept P sB2 ic (p_alg xB) = inl (pB, xb2, s_bctr sB, coreA)) as AC.
  { apply (ic_accept_honest P C now2 cn2 sB sB2 pB xB xb2 core); auto.
    - apply (pv_alg _ _ PB2).
    - apply hmix_len.
    - apply (ev_pk _ _ EvB).
    - apply (i_bctr P sB IB).
    - rewrite <- !named_key_slot. exact NK.
    - unfold last_used in LU. unfold pe in Xb2. rewrite Xb2 in LU. exact LU. }
  pose proof (first_type_of _ _ Ty3) as FT3.
  destruct (init_conf_accepted P now4 cn4 m3 txB2 sB2 pB xb2 (s_bctr sB) coreA (p_alg xB))
    as (s4 & x4 & Em4 & X4 & S4 & A4 & D4 & Pk4); auto.
  { intros Eb. apply ic_accept_refused. rewrite Bi3. apply N4. exists xB. auto. }
  { now rewrite Pa3. }
  { apply (pv_alg _ _ PB2). }
  { intros q. rewrite Pa3. apply SI. }
  { rewrite <- K4, <- (pv_alg _ _ PE2). unfold m3, ic_msg.
    refine (sealed_to P (rh_peer P now3 xa2 h2 coreA) MInitConf IC_LEN _ _ sB2 LC TC _).
    change (p_spkt xa2 = s_spkm sB2). rewrite (pv_spkt _ _ PE2), (ev_pk _ _ EvB). exact K1. }
  set (u := ic_session P now4 xb2 coreA) in *.
  set (m4 := commit_msg P x4 MEmptyData ED_LEN (ser_ed (rc_of P u)) txB2) in *.
  rewrite (exec_of_msg P cB2 m3 txB2 sB2 s4 (Some pB) (Some m4) O4 Em4) in E4.
  injection E4 as -> <-. cbn [message] in *.
  assert (wf_ed (rc_of P u)) as WE.
  { unfold rc_of, wf_ed. cbn [ed_sid ed_ctr ed_auth]. split; [apply WC|].
    split; [apply le_enc_length|apply aead_enc_len]. }
  assert (length (ser_ed (rc_of P u)) = ED_LEN) as LE by (apply ser_ed_len; exact WE).
  assert (ED_LEN + 36 <= length txB2) as TE by (unfold ED_LEN; lia).
  assert (length m4 = 64) as L4 by (exact (commit_msg_len P _ MEmptyData ED_LEN _ _ LE TE)).
  assert (is_type x84 m4) as Ty4 by (exact (commit_type P _ MEmptyData ED_LEN _ _ LE TE)).
  assert (parse_ed (env_payload ED_LEN m4) = rc_of P u) as Pa4.
  { unfold m4. rewrite (payload_of P _ MEmptyData ED_LEN _ _ LE TE). now apply parse_ser_ed. }
  destruct (data_parse m4) as (D1 & D2 & D3). rewrite Pa4 in D1, D2, D3.
  (* A: EmptyData *)
  assert (inv P sA3) as IA3.
  { eapply exec_inv; [exact IA2| |eapply exec_of_msg; [exact O3|exact Em3]]. split; [exact W3|]. now rewrite O3. }
  assert (evo sA2 sA3) as Ev3.
  { eapply exec_evo; [exact IA2| |eapply exec_of_msg; [exact O3|exact Em3]]. split; [exact W3|]. now rewrite O3. }
  pose proof (run_inv P _ _ _ IA3 Rn3) as IA4.
  assert (evo sA sA4) as Ev4.
  { eapply evo_trans; [exact Ev2|]. eapply evo_trans; [exact Ev3|]. eapply System.run_evo; eauto. }
  destruct (ev_pe _ _ Ev4 pA xA XA) as (xa4 & Xa4 & PE4). unfold pe in Xa4.
  destruct SP2 as (xa3 & xa4' & h3 & h4 & Xa3 & Xa4' & H3 & H4 & Sn & Sc & _ & _ & Sx).
  rewrite Xa4 in Xa4'. injection Xa4' as <-.
  pose proof (st_rel_self _ _ _ _ _ R3) as Xa3'. unfold pe in Xa3'. rewrite Xa3 in Xa3'.
  injection Xa3' as ->. cbn [p_handshake set_handshake] in H3. injection H3 as <-.
  cbn [stored set_retry set_tx erased set_core hs_next hs_cor] in Sn, Sc.
  unfold same_session in SS. rewrite Xa3, Xa4 in SS. cbn [option_map] in SS.
  injection SS as SS. cbn [p_session set_handshake rh_peer set_session] in SS.
  set (uA := enter_live P now3 coreA Initiator (p_alg xa2)) in *.
  destruct V5 as [W5 T5]. rewrite O5 in T5.
  assert (p_alg xa2 = p_alg xB) as Aa2 by (now rewrite (pv_alg _ _ PE2)).
  assert (p_alg xb2 = p_alg xB) as Ab2 by apply (pv_alg _ _ PB2).
  assert (se_txkt uA = se_txkm u) as Kt.
  { unfold uA, u, ic_session. cbn [se_txkt se_txkm enter_live]. now rewrite Aa2, Ab2. }
  assert (hs_sid h4 = ih_sidi ih) as Sh4.
  { unfold hs_sid. rewrite Sc. cbn [hc_sidi]. exact Sh. }
  pose proof (first_type_of _ _ Ty4) as FT4.
  destruct (empty_data_accepted P (c_now cA3) (c_coins cA3) m4 txA3 sA4 pA xa4 h4 uA [])
    as (s5 & Em5 & X5); auto.
  { rewrite <- D1. change (ed_sid (rc_of P u)) with (ih_sidi ih). rewrite <- Sh4. exact Sx. }
  { rewrite <- D1. exact Sh4. }
  { replace (p_alg xa4) with (p_alg x4) by (rewrite A4, Ab2, (pv_alg _ _ PE4); now symmetry).
    unfold m4. apply sealed_to; auto. rewrite Pk4, (pv_spkt _ _ PB2), (ev_pk _ _ Ev4). exact K2. }
  { rewrite <- D2. change (se_txnt uA) with 0%N. apply N.le_0_l. }
  { rewrite <- D2, <- D3, Kt. apply (aead_correct P C). }
  rewrite (exec_of_msg P cA3 m4 txA3 sA4 s5 None None O5 Em5) in E5. injection E5 as -> <-.
  split; [|split].
  - exists m1, m2, m3, m4. auto 15.
  - exists (hmix P (p_alg xB) (snd ef) (ds_compress P (p_alg xB) (p_ds xB))). split; [|split].
    + pose proof (osk_of P sA3 pA _ uA Xa3 eq_refl) as K.
      cbn [p_alg p_ds set_handshake rh_peer set_session] in K.
      rewrite Aa2, (pv_ds _ _ PE2), K5 in K. exact K.
    + pose proof (osk_of P sB3 pB x4 _ X4 S4) as K. rewrite A4, D4, Ab2, (pv_ds _ _ PB2) in K. exact K.
    + pose proof (osk_of P sA5 pA _ _ X5 eq_refl) as K.
      cbn [p_alg p_ds set_handshake set_session] in K.
      rewrite (pv_alg _ _ PE4), (pv_ds _ _ PE4), K4, K5 in K. exact K.
  - intros c tx V Eo. unfold exec. rewrite Eo. unfold map_ok, retransmit_handshake, apply_retransmission, get_hs, bind, get_peer.
    unfold pe in X5. rewrite X5. reflexivity.
Qed.
Print Assumptions C01_honest_handshake.

(** Beside C01: the two servers of [Demo] meet its hypotheses, and the key is the same. *)
Lemma still_pending_self s p x h : nth_error (s_peers s) p = Some x -> p_handshake x = Some h ->
  idx_get (KSid (hc_sidi (hs_cor h))) (s_index s) = Some p -> still_pending s s p.
Proof. intros X H K. exists x, x, h, h. repeat split; auto. Qed.

Example C01_nonvacuous :
  correct Demo.P /\ reachable Demo.P Demo.A1 /\ reachable Demo.P Demo.B1 /\
  genuine Demo.P Demo.A1 /\ genuine Demo.P Demo.B1 /\ configured Demo.A1 0 Demo.B1 0 /\
  valid Demo.cA2 Demo.A1 /\ exec Demo.P Demo.cA2 Demo.A1 = (Demo.A2, Ok (RSent Demo.m1)) /\
  sid_unused Demo.A1 (c_sid (c_coins Demo.cA2)) /\ ~ version Demo.B1 0 Blake /\
  still_pending Demo.A2 Demo.A2 0 /\
  (last_used Demo.B2 0 < le_dec (s_bctr Demo.B1))%N /\
  idx_get (KSid (c_sid (c_coins Demo.cB2))) (s_index Demo.B2) = None /\
  idx_get (KKnown (known_hash Demo.P Demo.B2 Demo.m3)) (s_index Demo.B2) = None /\
  still_pending Demo.A3 Demo.A3 0 /\
  (exists k, key_at Demo.P Demo.A3 0 k /\ key_at Demo.P Demo.B3 0 k /\ length k = 32).
Proof.
  split; [exact Toy.correct|].
  split. { exact (Demo.reach _ _ _ Demo.initA (Demo.step Demo.A0 Demo.cA1 Demo.rA1
            (conj (Demo.wf_coin _) Logic.I) ltac:(vm_compute; reflexivity) _ _ (run_nil _ _))). }
  split. { exact reachB1. }
  split; [vm_compute; reflexivity|]. split; [vm_compute; reflexivity|].
  split. { eexists _, _. split; [reflexivity|]. split; [reflexivity|]. repeat split; vm_compute; reflexivity. }
  split; [Demo.okv|]. split; [vm_compute; reflexivity|].
  split. { split; [vm_compute; reflexivity|]. intros [|p] x E; [|destruct p; discriminate].
    injection E as <-. split; discriminate. }
  split. { intros (x & E & A). vm_compute in E. injection E as <-. discriminate. }
  split. { eapply still_pending_self; [reflexivity|reflexivity|vm_compute; reflexivity]. }
  split; [vm_compute; reflexivity|]. split; [vm_compute; reflexivity|]. split; [vm_compute; reflexivity|].
  split. { eapply still_pending_self; [reflexivity|reflexivity|vm_compute; reflexivity]. }
  eexists. split; [|split].
  - eapply osk_of; reflexivity.
  - intros c V Eo. erewrite (osk_of Demo.P Demo.B3 0); [|reflexivity|reflexivity|exact V|exact Eo].
    vm_compute. reflexivity.
  - apply hmix_len.
Qed.

(** * C45 *)

(** The labels a domain separator stands for (papers/whitepaper.md, hash domains: "user", then
    the namespace and its labels; the WireGuard key has the namespace "rosenpass.eu" and the
    label "wireguard psk"). *)
Definition ds_labels (d : osk_ds) : list bytes :=
  match d with
  | ExtensionWireguardPsk => [str "rosenpass.eu"%string; str "wireguard psk"%string]
  | Custom ns labels => ns :: labels
  end.
Definition path_of (a : halg) (d : osk_ds) : list bytes :=
  [protocol_label a; str "chaining key extract"%string; str "user"%string] ++ ds_labels d.

(** One evaluation of the keyed hash: function, key and data. *)
Definition hash_call : Type := (halg * bytes * bytes)%type.
Definition value (P : prims) (c : hash_call) : bytes :=
  let '(a, k, d) := c in khash P a k d.
(** The evaluations when labels are hashed one after the other, starting with key [k]. *)
Fixpoint chain (P : prims) (a : halg) (k : bytes) (l : list bytes) : list hash_call :=
  match l with
  | [] => []
  | d :: l' => (a, k, d) :: chain P a (khash P a k d) l'
  end.
(** All evaluations behind the output key of a session with chaining key [ck]. *)
Definition key_calls (P : prims) (a a' : halg) (ck : bytes) (d : osk_ds) : list hash_call :=
  chain P a (zeros 32) (path_of a d) ++ [(a', ck, ds_compress P a d)].

Definition collide (P : prims) (l l' : list hash_call) : Prop :=
  exists c c', In c l /\ In c' l' /\ c <> c' /\ value P c = value P c'.
Definition hits_zero (P : prims) (l : list hash_call) : Prop :=
  exists c, In c l /\ value P c = zeros 32.

Lemma chain_app P a k l l' : chain P a k (l ++ l') = chain P a k l ++ chain P a (hpath P a k l) l'.
Proof. revert k. induction l as [|d l IH]; intros k; [reflexivity|]. cbn. now rewrite IH. Qed.
Lemma hpath_app P a k l l' : hpath P a k (l ++ l') = hpath P a (hpath P a k l) l'.
Proof. apply fold_left_app. Qed.

Lemma halg_dec (a b : halg) : {a = b} + {a <> b}.
Proof. decide equality. Qed.
Lemma bytes_dec (a b : bytes) : {a = b} + {a <> b}.
Proof. apply list_eq_dec. intros x y. apply Byte.byte_eq_dec. Qed.
Lemma call_dec (a b : hash_call) : {a = b} + {a <> b}.
Proof. decide equality; [apply bytes_dec|]. decide equality; [apply bytes_dec|apply halg_dec]. Qed.

Lemma collide_app P l1 l2 l1' l2' : collide P l1 l1' -> collide P (l1 ++ l2) (l1' ++ l2').
Proof. intros (c & c' & A & B & D). exists c, c'. split; [|split]; auto; apply in_or_app; auto. Qed.
Lemma hits_app P l1 l2 : hits_zero P l1 -> hits_zero P (l1 ++ l2).
Proof. intros (c & A & B). exists c. split; auto. apply in_or_app; auto. Qed.

Lemma chain_inj P a a' l : forall l',
  hpath P a (zeros 32) l = hpath P a' (zeros 32) l' ->
  (l = l' /\ (l <> [] -> a = a')) \/
  collide P (chain P a (zeros 32) l) (chain P a' (zeros 32) l') \/
  hits_zero P (chain P a (zeros 32) l) \/ hits_zero P (chain P a' (zeros 32) l').
Proof.
  induction l as [|d l IH] using rev_ind; intros l'.
  - destruct l' as [|d' l'] using rev_ind; [left; split; congruence|].
    rewrite hpath_app, chain_app. cbn. intros H. right. right. right.
    eexists. split; [apply in_or_app; right; left; reflexivity|]. symmetry. exact H.
  - destruct l' as [|d' l'] using rev_ind.
    + rewrite hpath_app, chain_app. cbn. intros H. right. right. left.
      eexists. split; [apply in_or_app; right; left; reflexivity|]. exact H.
    + rewrite !hpath_app, !chain_app. cbn [chain hpath fold_left]. intros H.
      destruct (call_dec (a, hpath P a (zeros 32) l, d) (a', hpath P a' (zeros 32) l', d')) as [E|N].
      * injection E as -> E ->. destruct (IH l' E) as [[-> _]|[K|[K|K]]].
        -- left. auto.
        -- right. left. now apply collide_app.
        -- right. right. left. now apply hits_app.
        -- right. right. right. now apply hits_app.
      * right. left. eexists _, _. split; [apply in_or_app; right; left; reflexivity|].
        split; [apply in_or_app; right; left; reflexivity|]. split; [exact N|]. exact H.
Qed.

Lemma ds_path P a d : ds_compress P a d = hpath P a (zeros 32) (path_of a d).
Proof. destruct d; reflexivity. Qed.

Lemma label_not_other : protocol_label Shake <> protocol_label Blake.
Proof. vm_compute. discriminate. Qed.

(** Two sessions, possibly of different servers, and two domain separators. *)
Theorem C45_output_key_binding : forall P s p x u ds s' p' x' u' ds' k t t',
  nth_error (s_peers s) p = Some x -> p_session x = Some u ->
  nth_error (s_peers s') p' = Some x' -> p_session x' = Some u' ->
  osk_with_domain_separator P p ds s = (t, Ok k) ->
  osk_with_domain_separator P p' ds' s' = (t', Ok k) ->
  (se_ck u = se_ck u' /\ p_alg x = p_alg x' /\ ds_labels ds = ds_labels ds') \/
  collide P (key_calls P (p_alg x) (se_alg u) (se_ck u) ds)
            (key_calls P (p_alg x') (se_alg u') (se_ck u') ds') \/
  hits_zero P (key_calls P (p_alg x) (se_alg u) (se_ck u) ds) \/
  hits_zero P (key_calls P (p_alg x') (se_alg u') (se_ck u') ds').
Proof.
  intros P s p x u ds s' p' x' u' ds' k t t' X U X' U' E E'.
  unfold osk_with_domain_separator, bind, get_peer in E, E'.
  rewrite X, U in E. rewrite X', U' in E'. cbn in E, E'.
  injection E as _ <-. injection E' as _ E'. unfold key_calls.
  destruct (call_dec (se_alg u, se_ck u, ds_compress P (p_alg x) ds)
              (se_alg u', se_ck u', ds_compress P (p_alg x') ds')) as [H|N].
  - injection H as _ Hc Hd. rewrite !ds_path in Hd.
    destruct (chain_inj P _ _ _ _ Hd) as [[Hl Ha]|[K|[K|K]]].
    + left. rewrite Ha by discriminate. unfold path_of in Hl. injection Hl as _ Hl. auto.
    + right. left. now apply collide_app.
    + right. right. left. now apply hits_app.
    + right. right. right. now apply hits_app.
  - right. left. eexists _, _. split; [apply in_or_app; right; left; reflexivity|].
    split; [apply in_or_app; right; left; reflexivity|]. split; [exact N|]. symmetry. exact E'.
Qed.
Print Assumptions C45_output_key_binding.

(** [osk] uses the separator the peer was added with. *)
Theorem C45_osk_uses_configured_separator : forall P c s p x s' r,
  nth_error (s_peers s) p = Some x -> c_op c = OOsk p -> exec P c s = (s', r) ->
  s' = s /\ exists r0, osk_with_domain_separator P p (p_ds x) s = (s, r0) /\
    r = match r0 with Ok k => Ok (RKey k) | Err e => Err e | Panic => Panic end.
Proof.
  intros P c s p x s' r X Eo E. unfold exec in E. rewrite Eo in E.
  unfold map_ok, osk in E. unfold bind at 1 2, get_peer at 1 in E. rewrite X in E.
  unfold osk_with_domain_separator, bind, get_peer in *. rewrite X in *.
  destruct (p_session x); cbn in E |- *; injection E as <- <-;
    (split; [reflexivity|]; eexists; split; reflexivity).
Qed.
Print Assumptions C45_osk_uses_configured_separator.

(** The WireGuard separator is the custom one with the same labels: separators that differ as
    Rust values can stand for the same labels, and then the keys agree. *)
Theorem C45_wireguard_labels : forall P p s,
  osk_with_domain_separator P p (Custom (str "rosenpass.eu"%string) [str "wireguard psk"%string]) s =
  osk_with_domain_separator P p ExtensionWireguardPsk s.
Proof. reflexivity. Qed.
Print Assumptions C45_wireguard_labels.

(** Non-vacuity: two sessions with the same key (both ends of the handshake), and two
    separators that give different keys. *)
Example C45_nonvacuous :
  (exists x u x' u' k, nth_error (s_peers Demo.A3) 0 = Some x /\ p_session x = Some u /\
     nth_error (s_peers Demo.B3) 0 = Some x' /\ p_session x' = Some u' /\
     osk_with_domain_separator Demo.P 0 ExtensionWireguardPsk Demo.A3 = (Demo.A3, Ok k) /\
     osk_with_domain_separator Demo.P 0 ExtensionWireguardPsk Demo.B3 = (Demo.B3, Ok k)) /\
  snd (osk_with_domain_separator Demo.P 0 (Custom [x01] []) Demo.A3) <>
  snd (osk_with_domain_separator Demo.P 0 (Custom [x02] []) Demo.A3).
Proof.
  split.
  - eexists _, _, _, _, _. split; [reflexivity|]. split; [reflexivity|]. split; [reflexivity|].
    split; [reflexivity|]. split; vm_compute; reflexivity.
  - vm_compute. discriminate.
Qed.
