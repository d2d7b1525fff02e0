(** What each call can do to the server, as one relation: used by the proofs of
    properties of histories. *)
From Verif Require Import Base ConstTime Prims HashDomains Wire Server Protocol Wp Inv Rules Calls PollRules System.
Local Open Scope m_scope.

Lemma skipn_skipn {A} (a b : nat) (l : list A) : skipn a (skipn b l) = skipn (b + a) l.
Proof. revert l. induction b as [|b IH]; intros [|x l]; cbn; auto. now destruct a. Qed.

Lemma slice_slice (a n b k : nat) (l : bytes) :
  b + k <= n -> slice b k (slice a n l) = slice (a + b) k l.
Proof.
  intros H. unfold slice. rewrite skipn_firstn_comm, firstn_firstn, skipn_skipn.
  now rewrite Nat.min_l by lia.
Qed.

Section WithPrims.
Context (P : prims).

Definition first_type (rx : bytes) : option msg_type :=
  match rx with b :: _ => mt_of b | [] => None end.

Definition handled (p : option nat) (m : option bytes) : msg_result :=
  {| mr_exchanged := p; mr_resp := m |}.

Inductive msgstep (now : time) (c : coins) (rx tx : bytes) (s : srv)
  : srv -> res err msg_result -> Prop :=
| ms_err e : msgstep now c rx tx s s (Err e)
| ms_ih_rej p x ck a e :
    first_type rx = Some MInitHello -> length rx = 1060 ->
    ih_try P s (parse_ih (env_payload IH_LEN rx)) = Some (p, x, ck, a) ->
    msgstep now c rx tx s (after_biscuit now c s) (Err e)
| ms_ih p x ck :
    first_type rx = Some MInitHello -> length rx = 1060 ->
    ih_try P s (parse_ih (env_payload IH_LEN rx)) = Some (p, x, ck, p_alg x) ->
    check_seal P s (p_alg x) IH_LEN rx = true ->
    msgstep now c rx tx s (after_biscuit now c s)
      (Ok (handled None
             (Some (rh_msg P now c s x (parse_ih (env_payload IH_LEN rx)) (p_alg x) ck tx))))
| ms_rh_rej p x h ic core s1 :
    first_type rx = Some MRespHello -> length rx = 1100 ->
    ix s (KSid (rh_sidi (parse_rh (env_payload RH_LEN rx)))) = Some p ->
    pe s p = Some x -> p_handshake x = Some h ->
    hs_sid h = rh_sidi (parse_rh (env_payload RH_LEN rx)) -> hs_next h = ExpRespHello ->
    handle_rh_compute P s h (parse_rh (env_payload RH_LEN rx)) = Some (ic, core) ->
    check_seal P s (p_alg x) RH_LEN rx = false ->
    st_rel s s1 p (rh_peer P now x h core) (ix_add (ix_ses_take (ix s) x) (hs_sid h) p) ->
    msgstep now c rx tx s s1 (Err ESeal)
| ms_rh p x h ic core s1 :
    first_type rx = Some MRespHello -> length rx = 1100 ->
    ix s (KSid (rh_sidi (parse_rh (env_payload RH_LEN rx)))) = Some p ->
    pe s p = Some x -> p_handshake x = Some h ->
    hs_sid h = rh_sidi (parse_rh (env_payload RH_LEN rx)) -> hs_next h = ExpRespHello ->
    handle_rh_compute P s h (parse_rh (env_payload RH_LEN rx)) = Some (ic, core) ->
    check_seal P s (p_alg x) RH_LEN rx = true ->
    st_rel s s1 p
      (set_handshake (Some (stored now c (ic_msg P now x h core ic tx) (erased h)))
                     (rh_peer P now x h core))
      (ix_add (ix_ses_take (ix s) x) (hs_sid h) p) ->
    msgstep now c rx tx s s1 (Ok (handled (Some p) (Some (ic_msg P now x h core ic tx))))
| ms_ic_cached p x k :
    first_type rx = Some MInitConf -> length rx = 176 ->
    ix s (KKnown (known_hash P s rx)) = Some p -> pe s p = Some x -> p_known x = Some k ->
    kr_mac k = known_hash P s rx ->
    check_seal P s (p_alg x) IC_LEN rx = true ->
    msgstep now c rx tx s s (Ok (handled None (Some (cached_msg P x k))))
| ms_ic_fail e s1 s2 :
    first_type rx = Some MInitConf -> length rx = 176 ->
    ix s (KKnown (known_hash P s rx)) = None ->
    ic_failed P s (parse_ic (env_payload IC_LEN rx)) Shake s1 ->
    ic_failed P s1 (parse_ic (env_payload IC_LEN rx)) Blake s2 ->
    keep P s s1 -> keep P s s2 ->
    msgstep now c rx tx s s2 (Err e)
| ms_ic_rej s0 a p x bno core s1 e :
    first_type rx = Some MInitConf -> length rx = 176 ->
    ix s (KKnown (known_hash P s rx)) = None ->
    (a = Shake /\ s0 = s \/ a = Blake /\ ic_failed P s (parse_ic (env_payload IC_LEN rx)) Shake s0) ->
    keep P s s0 -> keep P s s1 ->
    ic_accept P s0 (parse_ic (env_payload IC_LEN rx)) a = inl (p, x, bno, core) ->
    (ix_ses_take (ix s0) x (KSid (ic_sidr (parse_ic (env_payload IC_LEN rx)))) = None \/
      ix_ses_take (ix s0) x (KSid (ic_sidr (parse_ic (env_payload IC_LEN rx)))) = Some p) ->
    st_rel s0 s1 p (ic_peer P now x bno core) (ix_ic (ix s0) x (ic_session P now x core) p) ->
    msgstep now c rx tx s s1 (Err e)
| ms_ic s0 p x bno core s1 s2 :
    first_type rx = Some MInitConf -> length rx = 176 ->
    ix s (KKnown (known_hash P s rx)) = None ->
    (p_alg x = Shake /\ s0 = s \/
     p_alg x = Blake /\ ic_failed P s (parse_ic (env_payload IC_LEN rx)) Shake s0) ->
    keep P s s0 -> keep P s s1 ->
    ic_accept P s0 (parse_ic (env_payload IC_LEN rx)) (p_alg x) = inl (p, x, bno, core) ->
    (ix_ses_take (ix s0) x (KSid (ic_sidr (parse_ic (env_payload IC_LEN rx)))) = None \/
      ix_ses_take (ix s0) x (KSid (ic_sidr (parse_ic (env_payload IC_LEN rx)))) = Some p) ->
    st_rel s0 s1 p (ic_peer P now x bno core) (ix_ic (ix s0) x (ic_session P now x core) p) ->
    check_seal P s (p_alg x) IC_LEN rx = true ->
    st_rel s1 s2 p
      (set_known (Some (new_known P now s rx tx (rc_of P (ic_session P now x core))))
         (ic_peer P now x bno core))
      (fun k => if ikey_eqb k (KKnown (known_hash P s rx)) then Some p
                else ix_known_rm (ix s1) x k) ->
    msgstep now c rx tx s s2
      (Ok (handled (Some p)
        (Some (commit_msg P
           (set_known (Some (new_known P now s rx tx (rc_of P (ic_session P now x core))))
              (ic_peer P now x bno core))
           MEmptyData ED_LEN (ser_ed (rc_of P (ic_session P now x core))) tx))))
| ms_ed_rej p x h u :
    first_type rx = Some MEmptyData -> length rx = 64 ->
    ix s (KSid (ed_sid (parse_ed (env_payload ED_LEN rx)))) = Some p ->
    pe s p = Some x -> p_handshake x = Some h ->
    hs_sid h = ed_sid (parse_ed (env_payload ED_LEN rx)) ->
    hs_next h = ExpRespConf -> p_session x = Some u ->
    check_seal P s (p_alg x) ED_LEN rx = true ->
    (se_txnt u <= le_dec (ed_ctr (parse_ed (env_payload ED_LEN rx))))%N ->
    aead_dec P (se_txkt u) (ed_ctr (parse_ed (env_payload ED_LEN rx)) ++ zeros 4) []
      (ed_auth (parse_ed (env_payload ED_LEN rx))) = None ->
    msgstep now c rx tx s
      (with_peer p (set_session (Some (set_txnt
         (le_dec (ed_ctr (parse_ed (env_payload ED_LEN rx)))) u)) x) s) (Err EDecrypt)
| ms_ed p x h u s1 pt :
    first_type rx = Some MEmptyData -> length rx = 64 ->
    ix s (KSid (ed_sid (parse_ed (env_payload ED_LEN rx)))) = Some p ->
    pe s p = Some x -> p_handshake x = Some h ->
    hs_sid h = ed_sid (parse_ed (env_payload ED_LEN rx)) ->
    hs_next h = ExpRespConf -> p_session x = Some u ->
    check_seal P s (p_alg x) ED_LEN rx = true ->
    (se_txnt u <= le_dec (ed_ctr (parse_ed (env_payload ED_LEN rx))))%N ->
    aead_dec P (se_txkt u) (ed_ctr (parse_ed (env_payload ED_LEN rx)) ++ zeros 4) []
      (ed_auth (parse_ed (env_payload ED_LEN rx))) = Some pt ->
    st_rel s s1 p
      (set_handshake None (set_session (Some (set_txnt
         (le_dec (ed_ctr (parse_ed (env_payload ED_LEN rx)))) u)) x))
      (ix_hs_take (ix s) (set_session (Some (set_txnt
         (le_dec (ed_ctr (parse_ed (env_payload ED_LEN rx)))) u)) x)) ->
    msgstep now c rx tx s s1 (Ok (handled None None))
| ms_cr_rej p x h mac v :
    first_type rx = Some MCookieReply -> length rx = 1060 ->
    ix s (KSid (cr_sid (parse_cr rx))) = Some p -> pe s p = Some x ->
    has_id (cr_sid (parse_cr rx)) x = true ->
    p_handshake x = Some h -> last_mac h = Some mac ->
    dec_in_place P (hmix P Shake (d_cookie_key P Shake) (p_spkt x)) mac
      (cr_cookie (parse_cr rx)) = (v, false) ->
    msgstep now c rx tx s
      (with_peer p (set_handshake
         (Some (set_hs_cookie {| cs_created := now; cs_value := v |} h)) x) s) (Err EDecrypt)
| ms_cr p x h mac v :
    first_type rx = Some MCookieReply -> length rx = 1060 ->
    ix s (KSid (cr_sid (parse_cr rx))) = Some p -> pe s p = Some x ->
    has_id (cr_sid (parse_cr rx)) x = true ->
    p_handshake x = Some h -> last_mac h = Some mac ->
    dec_in_place P (hmix P Shake (d_cookie_key P Shake) (p_spkt x)) mac
      (cr_cookie (parse_cr rx)) = (v, true) ->
    msgstep now c rx tx s
      (with_peer p (set_handshake (Some (set_retry now (hs_tx_count h + 1)
         (set_hs_cookie {| cs_created := now; cs_value := v |} h))) x) s)
      (Ok (handled None None)).

Lemma handle_msg_step now c rx tx s s' r :
  inv P s -> 1100 <= length tx -> handle_msg P now c rx tx s = (s', r) ->
  msgstep now c rx tx s s' r.
Proof.
  intros I T E.
  assert (wp (handle_msg P now c rx tx) (msgstep now c rx tx s) s) as W.
  2:{ unfold wp in W. now rewrite E in W. }
  clear E s' r. apply tx_fits in T. unfold handle_msg.
  destruct rx as [|b l] eqn:Erx; [apply wp_fail; constructor|].
  rewrite <- Erx. assert (first_type rx = mt_of b) as FT by now rewrite Erx. clear Erx.
  destruct (mt_of b) as [t|] eqn:Et; [|apply wp_fail; constructor].
  rewrite leb_ltb_false by exact T. destruct t.
  - unfold wp. rewrite msg_init_hello_eq by exact I. cbn zeta.
    destruct (Nat.eqb_spec (length rx) (env_len IH_LEN)) as [L|_]; [|constructor].
    destruct (ih_try _ _ _) as [[[[p x] ck] a]|] eqn:Ei; [|constructor]. cbn [fst snd].
    destruct (halg_eqb (p_alg x) a) eqn:Ea; cbn [negb]; [|eapply ms_ih_rej; eauto].
    apply halg_eqb_eq in Ea. subst a.
    destruct (check_seal _ _ _ _ _) eqn:Es; cbn [negb]; [|eapply ms_ih_rej; eauto].
    eapply ms_ih; eauto.
  - apply wp_msg_resp_hello; auto; [constructor|].
    intros p x h ic core s1 rh L Hi Hp Hh Hs Hn Hc R G. split.
    + intros Es. eapply ms_rh_rej; eauto.
    + intros s2 Es msg E2 _. eapply ms_rh; eauto. subst s2.
      eapply st_rel_trans; [exact R|]. eapply st_rel_ext.
      * eapply with_peer_rel. eapply st_rel_self; eauto.
      * intros k. apply (sr_ix _ _ _ _ _ R).
  - apply wp_msg_init_conf; auto.
    + constructor.
    + intros. eapply ms_ic_cached; eauto.
    + intros. eapply ms_ic_fail; eauto.
    + intros s0 a p x bno core s1 ic u L EK HA K0 K1 HI SF R. split; [|split].
      * intros _. eapply ms_ic_rej; eauto.
      * intros Ea _. eapply ms_ic_rej; eauto.
      * intros s2 Ea Es x2 R2 G. subst a. eapply ms_ic; eauto.
  - apply wp_msg_empty_data; auto; [constructor|].
    intros p x h u rc L Hi Hp Hh Hs Hn Hu Hc Ht x1. split.
    + intros D _. eapply ms_ed_rej; eauto.
    + intros s1 pt D R _. eapply ms_ed; eauto.
  - apply wp_msg_cookie_reply; auto; [constructor|].
    intros p x h mac cr L Hi Hp Hd Hh Hm d h1. split.
    + intros D _. eapply ms_cr_rej; eauto. fold cr d. rewrite <- D. apply surjective_pairing.
    + intros D _. eapply ms_cr; eauto. fold cr d. rewrite <- D. apply surjective_pairing.
Qed.

(** Under load: one of three things. *)
Inductive loadstep (now : time) (c : coins) (rx tx host : bytes) (s : srv)
  : srv -> res err msg_result -> Prop :=
| ls_err e : loadstep now c rx tx host s s (Err e)
| ls_conf s' r : first_type rx = Some MInitConf ->
    msgstep now c rx tx s s' r -> loadstep now c rx tx host s s' r
| ls_hello s' r : first_type rx = Some MInitHello -> length rx = 1060 ->
    cookie_valid P (fst (cs_choice now c s)) host rx (snd (cs_choice now c s)) = true ->
    msgstep now c rx tx (fst (cs_choice now c s)) s' r -> loadstep now c rx tx host s s' r
| ls_size e : first_type rx = Some MInitHello ->
    loadstep now c rx tx host s (fst (cs_choice now c s)) (Err e)
| ls_reply i l : first_type rx = Some MInitHello -> length rx = 1060 ->
    snd (cs_choice now c s) = i :: l ->
    cookie_valid P (fst (cs_choice now c s)) host rx (i :: l) = false ->
    loadstep now c rx tx host s (fst (cs_choice now c s))
      (Ok (handled None (Some (ser_cr
        {| cr_type := [mt_code MCookieReply]; cr_reserved := slice 1 3 tx;
           cr_sid := ih_sidi (parse_ih (env_payload IH_LEN rx));
           cr_cookie := xenc P (hmix P Shake (d_cookie_key P Shake) (s_spkm s)) (c_xnonce c)
             (env_mac IH_LEN rx)
             (cookie_value_for P (cs_value (get_cs i (fst (cs_choice now c s)))) host);
           cr_padding := c_pad c |})))).

Lemma handle_load_step now c rx tx host s s' r :
  inv P s -> 1100 <= length tx -> handle_msg_under_load P now c rx tx host s = (s', r) ->
  loadstep now c rx tx host s s' r.
Proof.
  intros I T E.
  assert (wp (handle_msg_under_load P now c rx tx host) (loadstep now c rx tx host s) s) as W.
  2:{ unfold wp in W. now rewrite E in W. }
  clear E s' r. unfold handle_msg_under_load.
  destruct rx as [|b l] eqn:Erx; [apply wp_fail; constructor|].
  rewrite <- Erx. assert (first_type rx = mt_of b) as FT by now rewrite Erx. clear Erx.
  destruct (mt_of b) as [t|] eqn:Et; [|apply wp_fail; constructor].
  destruct t; try (apply wp_fail; constructor).
  2:{ apply wp_of_run. intros s' r E. apply ls_conf; auto. now apply handle_msg_step. }
  apply wp_bind. unfold wp at 1. rewrite cookie_secrets_eq. cbn [fst snd].
  pose proof (cs_choice_good P now c s I) as G.
  destruct (cs_choice_nonempty now c s) as (i & l' & El). rewrite El.
  wstep. wstep. wstep. wstep; [|eapply ls_size; eauto].
  match goal with H : Nat.eqb _ _ = true |- _ => apply Nat.eqb_eq in H; rename H into L end.
  destruct (cookie_valid P (fst (cs_choice now c s)) host rx (i :: l')) eqn:EV.
  - apply wp_of_run. intros s' r E. apply ls_hello; auto; [congruence|].
    apply handle_msg_step; auto. apply G.
  - wstep. cbn [hd_error]. wstep. rewrite leb_ltb_false by now apply ih_fits, tx_fits.
    wstep. destruct (cs_choice_frame now c s) as (_ & F & _). rewrite F.
    eapply ls_reply; eauto.
Qed.

(** Polling. *)
Inductive pollstep (now : time) (c : coins) (s : srv) : srv -> poll_result -> Prop :=
| ps s2 r :
    scan now c (peer_ptrs_off (npeers s) (s_poll_off s)) (erase_keys now c s)
      (Z.min UNENDING (keys_wait now s)) s2 r ->
    good P s (set_poll_off (next_off r) s2) ->
    pollstep now c s (set_poll_off (next_off r) s2) r.

(** Polling one peer. *)
Inductive peerpoll (now : time) (c : coins) (p : nat) (x : peer) (s : srv)
  : srv -> poll_result -> Prop :=
| pp_delete s' : peer_event now x = EvDelete ->
    st_rel s s' p (set_session None (drop_hs now x))
      (ix_ses_take (ix_drop_hs now (ix s) x) (drop_hs now x)) ->
    peerpoll now c p x s s' (DeleteKey p)
| pp_init s' : peer_event now x = EvInit ->
    st_rel s s' p (set_init_req true (drop_hs now x)) (ix_drop_hs now (ix s) x) ->
    peerpoll now c p x s s' (SendInitiation p)
| pp_retry s' : peer_event now x = EvRetry ->
    st_rel s s' p (retried now c (drop_hs now x)) (ix_drop_hs now (ix s) x) ->
    peerpoll now c p x s s' (SendRetransmission p)
| pp_none s' : peer_event now x = EvNone ->
    st_rel s s' p (drop_known now (drop_hs now x))
      (ix_drop_known now (ix_drop_hs now (ix s) x) (drop_hs now x)) ->
    (hs_dead now x = false -> known_dead now x = false -> s' = s) ->
    peerpoll now c p x s s' (Sleep (peer_wait now x)).

Lemma poll_peer_step now c p x s : inv P s -> pe s p = Some x ->
  exists s' r, poll_peer now c p s = (s', Ok r) /\ peerpoll now c p x s s' r /\ good P s s'.
Proof.
  intros I X.
  assert (wp (poll_peer now c p)
    (fun s' r => exists r', r = Ok r' /\ peerpoll now c p x s s' r' /\ good P s s') s) as W.
  { apply wp_poll_peer with (P := P) (x := x); auto; intros; (eexists; split; [reflexivity|]);
      (split; [|assumption]); now constructor. }
  unfold wp in W. destruct (poll_peer now c p s) as [s' r]. cbn [fst snd] in W.
  destruct W as (r' & -> & K & G). eauto.
Qed.

(** [scan] in terms of [peerpoll]. *)
Inductive pscan (now : time) (c : coins) : list nat -> srv -> time -> srv -> poll_result -> Prop :=
| psc_nil s t : pscan now c [] s t s (Sleep t)
| psc_sleep p x l s t s1 u s2 r :
    inv P s -> pe s p = Some x -> peerpoll now c p x s s1 (Sleep u) -> good P s s1 ->
    pscan now c l s1 (Z.min t u) s2 r -> pscan now c (p :: l) s t s2 r
| psc_event p x l s t s1 r :
    inv P s -> pe s p = Some x -> peerpoll now c p x s s1 r -> good P s s1 ->
    saturated r = true ->
    pscan now c (p :: l) s t s1 r.

Lemma scan_pscan now c l s t s' r :
  inv P s -> (forall p, In p l -> p < npeers s) -> scan now c l s t s' r -> pscan now c l s t s' r.
Proof.
  intros I B S. induction S as [s t|p l s t s1 u s2 r E S IH|p l s t s1 r E Sat].
  - constructor.
  - destruct (pe_some s p (B p (or_introl eq_refl))) as [x X].
    destruct (poll_peer_step now c p x s I X) as (s' & r' & E' & K & G).
    rewrite E in E'. injection E' as <- <-. eapply psc_sleep; eauto. apply IH; [apply G|].
    intros q Hq. rewrite (g_n _ _ _ G). apply B. now right.
  - destruct (pe_some s p (B p (or_introl eq_refl))) as [x X].
    destruct (poll_peer_step now c p x s I X) as (s' & r' & E' & K & G).
    rewrite E in E'. injection E' as <- <-. eapply psc_event; eauto.
Qed.

Lemma pollstep_pscan now c s s' r : inv P s -> pollstep now c s s' r ->
  exists s2, s' = set_poll_off (next_off r) s2 /\
    pscan now c (peer_ptrs_off (npeers s) (s_poll_off s)) (erase_keys now c s)
      (Z.min UNENDING (keys_wait now s)) s2 r.
Proof.
  intros I [s2 r' S G]. exists s2. split; auto. apply scan_pscan; auto.
  - apply erase_keys_good. exact I.
  - intros p H. apply peer_ptrs_off_lt in H.
    now rewrite (g_n _ _ _ (erase_keys_good P now c s I)).
Qed.

(** Invariants of polling. *)
Lemma pscan_ind_inv now c (J : srv -> Prop) :
  (forall s p x s' r, inv P s -> pe s p = Some x -> peerpoll now c p x s s' r -> J s -> J s') ->
  forall l s t s' r, pscan now c l s t s' r -> J s -> J s'.
Proof. intros K l s t s' r S. induction S; intros Hj; eauto. Qed.

Inductive step (c : call) (s : srv) : srv -> res err outcome -> Prop :=
| st_add_err psk pk a ds : c_op c = OAddPeer psk pk a ds ->
    ix s (KPeer (peer_id P a pk)) <> None ->
    step c s s (Err EPeerExists)
| st_add psk pk a ds : c_op c = OAddPeer psk pk a ds ->
    ix s (KPeer (peer_id P a pk)) = None ->
    step c s (set_peers (s_peers s ++ [new_peer psk pk a ds])
               (set_index (idx_set (KPeer (peer_id P a pk)) (npeers s) (s_index s)) s))
      (Ok (RPeer (npeers s)))
| st_init_err p tx q : c_op c = OInitiate p tx ->
    q <> p -> ix s (KSid (c_sid (c_coins c))) = Some q ->
    step c s s (Err ESidInUse)
| st_init p tx x s1 : c_op c = OInitiate p tx ->
    pe s p = Some x ->
    (ix s (KSid (c_sid (c_coins c))) = None \/ ix s (KSid (c_sid (c_coins c))) = Some p) ->
    st_rel s s1 p
      (ins_hs (stored (c_now c) (c_coins c) (ih_msg P (c_now c) (c_coins c) s x tx)
                      (ini_hs P (c_now c) (c_coins c) s x)) x)
      (ix_hs_take (ix_add (ix s) (c_sid (c_coins c)) p) x) ->
    step c s s1 (Ok (RSent (ih_msg P (c_now c) (c_coins c) s x tx)))
| st_msg rx tx s1 r : c_op c = OMsg rx tx ->
    msgstep (c_now c) (c_coins c) rx tx s s1 r ->
    step c s s1 (match r with Ok m => Ok (RHandled m) | Err e => Err e | Panic => Panic end)
| st_load rx tx host s1 r : c_op c = OLoad rx tx host ->
    loadstep (c_now c) (c_coins c) rx tx host s s1 r ->
    step c s s1 (match r with Ok m => Ok (RHandled m) | Err e => Err e | Panic => Panic end)
| st_poll s1 r : c_op c = OPoll ->
    pollstep (c_now c) (c_coins c) s s1 r ->
    step c s s1 (Ok (RPolled r))
| st_retransmit p tx r : c_op c = ORetransmit p tx -> r <> Panic ->
    step c s s r
| st_osk p r : c_op c = OOsk p -> r <> Panic -> step c s s r.

Lemma map_ok_run {A B} (f : A -> B) (m : M A) s s' r :
  map_ok f m s = (s', r) ->
  exists r0, m s = (s', r0) /\ r = match r0 with Ok a => Ok (f a) | Err e => Err e | Panic => Panic end.
Proof.
  unfold map_ok, bind. destruct (m s) as [s1 [a|e|]]; unfold ret; intros [= <- <-]; eauto.
Qed.

Lemma exec_step c s s' r : inv P s -> valid c s -> exec P c s = (s', r) -> step c s s' r.
Proof.
  intros I [W V] E. unfold exec in E.
  destruct (c_op c) as [psk pk a ds|p tx|rx tx|rx tx host| |p tx|p] eqn:Eo;
    apply map_ok_run in E; destruct E as (r0 & E & Er).
  - rewrite add_peer_eq in E. destruct (ix s (KPeer (peer_id P a pk))) eqn:Ei;
      injection E as <- <-; subst r.
    + eapply st_add_err; eauto. congruence.
    + eapply st_add; eauto.
  - destruct V as [L T]. destruct (pe_some s p L) as [x X].
    assert (wp (initiate_handshake P (c_now c) (c_coins c) p tx)
      (fun s' r => step c s s' (match r with Ok a => Ok (RSent a) | Err e => Err e | Panic => Panic end)) s) as K.
    { eapply wp_initiate_handshake; [exact X|apply ih_fits, tx_fits, T| |].
      - intros s1 s2 C R Es. eapply st_init; eauto. subst s2.
        eapply st_rel_trans; [exact R|]. eapply st_rel_ext.
        + eapply with_peer_rel; eapply st_rel_self; eauto.
        + intros k. apply (sr_ix _ _ _ _ _ R).
      - intros q Nq Eq. eapply st_init_err; eauto. }
    unfold wp in K. rewrite E in K. now subst r.
  - subst r. eapply st_msg; eauto. eapply handle_msg_step; eauto.
  - subst r. eapply st_load; eauto. eapply handle_load_step; eauto.
  - destruct (poll_eq P (c_now c) (c_coins c) s I) as (s2 & r2 & E2 & S2 & G2).
    rewrite E2 in E. injection E as <- <-. subst r. apply st_poll; auto. constructor; auto.
  - destruct V as [L T].
    pose proof (retransmit_fine P p tx s I L (ih_fits _ (tx_fits _ T))) as F.
    unfold wp in F. rewrite E in F. cbn [fst snd] in F. destruct F as [F N]. subst s' r.
    eapply st_retransmit; eauto. destruct r0; try discriminate. now destruct N.
  - pose proof (osk_fine P p s I V) as F.
    unfold wp in F. rewrite E in F. cbn [fst snd] in F. destruct F as [F N]. subst s' r.
    eapply st_osk; eauto. destruct r0; try discriminate. now destruct N.
Qed.

(** Message calls: their outcome as one of [msgstep]. *)
Lemma exec_msg_step c rx tx s s' r : inv P s -> valid c s -> c_op c = OMsg rx tx ->
  exec P c s = (s', r) ->
  exists r0, msgstep (c_now c) (c_coins c) rx tx s s' r0 /\
    r = match r0 with Ok m => Ok (RHandled m) | Err e => Err e | Panic => Panic end.
Proof.
  intros I [_ V] Eo E. unfold exec in E. rewrite Eo in E, V.
  apply map_ok_run in E. destruct E as (r0 & E & Er). exists r0. split; auto.
  now apply handle_msg_step.
Qed.
Lemma exec_msg_ok c rx tx s s' m : inv P s -> valid c s -> c_op c = OMsg rx tx ->
  exec P c s = (s', Ok (RHandled m)) -> msgstep (c_now c) (c_coins c) rx tx s s' (Ok m).
Proof.
  intros I V Eo E. destruct (exec_msg_step c rx tx s s' _ I V Eo E) as ([a|e|] & M & Er);
    try discriminate. now injection Er as ->.
Qed.
Lemma exec_msg_err c rx tx s s' e : inv P s -> valid c s -> c_op c = OMsg rx tx ->
  exec P c s = (s', Err e) -> msgstep (c_now c) (c_coins c) rx tx s s' (Err e).
Proof.
  intros I V Eo E. destruct (exec_msg_step c rx tx s s' _ I V Eo E) as ([a|e'|] & M & Er);
    try discriminate. now injection Er as ->.
Qed.
Lemma exec_load_step c rx tx host s s' r : inv P s -> valid c s -> c_op c = OLoad rx tx host ->
  exec P c s = (s', r) ->
  exists r0, loadstep (c_now c) (c_coins c) rx tx host s s' r0 /\
    r = match r0 with Ok m => Ok (RHandled m) | Err e => Err e | Panic => Panic end.
Proof.
  intros I [_ V] Eo E. unfold exec in E. rewrite Eo in E, V.
  apply map_ok_run in E. destruct E as (r0 & E & Er). exists r0. split; auto.
  now apply handle_load_step.
Qed.
Lemma exec_load_ok c rx tx host s s' m : inv P s -> valid c s -> c_op c = OLoad rx tx host ->
  exec P c s = (s', Ok (RHandled m)) -> loadstep (c_now c) (c_coins c) rx tx host s s' (Ok m).
Proof.
  intros I V Eo E. destruct (exec_load_step c rx tx host s s' _ I V Eo E) as ([a|e|] & M & Er);
    try discriminate. now injection Er as ->.
Qed.
Lemma exec_poll_step c s s' r : inv P s -> valid c s -> c_op c = OPoll ->
  exec P c s = (s', r) -> exists r0, r = Ok (RPolled r0) /\ pollstep (c_now c) (c_coins c) s s' r0.
Proof.
  intros I V Eo E. pose proof (exec_step c s s' r I V E) as S.
  inversion S; try congruence. eauto.
Qed.

(** Histories in which every call meets a condition. *)
Inductive run_if (Q : call -> srv -> Prop) : srv -> list (call * res err outcome) -> srv -> Prop :=
| ri_nil s : run_if Q s [] s
| ri_cons s c r s1 h s2 :
    valid c s -> Q c s -> exec P c s = (s1, r) -> run_if Q s1 h s2 ->
    run_if Q s ((c, r) :: h) s2.

Lemma run_if_run Q s h s' : run_if Q s h s' -> run P s h s'.
Proof. intros R. induction R; econstructor; eauto. Qed.
Lemma run_run_if s h s' : run P s h s' -> run_if (fun _ _ => True) s h s'.
Proof. intros R. induction R; econstructor; eauto. Qed.

Lemma run_if_ind_inv (Q : call -> srv -> Prop) (J : srv -> Prop) :
  (forall c s s' r, inv P s -> valid c s -> Q c s -> step c s s' r -> J s -> J s') ->
  forall s h s', inv P s -> run_if Q s h s' -> J s -> J s'.
Proof.
  intros K s h s' I R. induction R as [|s c r s1 h s2 V Hq E R IH]; auto.
  intros Hj. apply IH; [eapply exec_inv; eauto|]. eapply K; [exact I|exact V|exact Hq| |exact Hj].
  eapply exec_step; eauto.
Qed.

End WithPrims.
