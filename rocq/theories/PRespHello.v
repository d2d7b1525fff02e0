(** C54: a RespHello is accepted once, and only for the handshake it answers. *)
From Verif Require Import Base ConstTime PConstTime Prims HashDomains Wire Server Protocol Wp Inv Rules Calls PollRules System Trans Spec Transcript Demo PSafety PReplay PNotice Forward PRetransmit PCookie PWire PHandshake PDomains PTranscript.
Local Open Scope m_scope.

(** A RespHello [m] answers the handshake [h] of the server with key pair [sk], [pk]: it names the
    session id of [h], and its tag opens under the chaining key of [h] extended by the message. *)
Definition answers (P : prims) (sk pk : bytes) (h : ihs) (m : bytes) : Prop :=
  let a := hc_alg (hs_cor h) in
  hc_sidi (hs_cor h) = resp_sidi m /\ hs_next h = ExpRespHello /\
  exists pt, opens P (tag_key P a (mixed P a (hc_ck (hs_cor h))
    [resp_sidr m; resp_sidi m; hs_epki h; ekem_dec P (hs_eski h) (resp_ecti m); resp_ecti m;
     pk; skem_dec P sk (resp_scti m); resp_scti m; resp_biscuit m])) (resp_auth m) pt.

(** A RespHello is accepted only as the answer to the pending handshake of the peer reported, and
    only if it is sealed for this server.  It is answered, the handshake then waits for the
    acknowledgement, and no other peer is touched. *)
Theorem C54_resp_hello : forall P s c rx tx s' p m,
  reachable P s -> valid c s -> c_op c = OMsg rx tx -> is_type x82 rx ->
  exec P c s = (s', Ok (RHandled {| mr_exchanged := Some p; mr_resp := m |})) ->
  exists x h x' h' ic,
    nth_error (s_peers s) p = Some x /\ p_handshake x = Some h /\
    answers P (s_sskm s) (s_spkm s) h rx /\ sealed P (p_alg x) (s_spkm s) rx /\
    m = Some ic /\ is_type x83 ic /\
    conf_sidi ic = resp_sidi rx /\ conf_sidr ic = resp_sidr rx /\ conf_biscuit ic = resp_biscuit rx /\
    nth_error (s_peers s') p = Some x' /\ p_handshake x' = Some h' /\ hs_next h' = ExpRespConf /\
    hc_sidi (hs_cor h') = resp_sidi rx /\
    (forall q, q <> p -> nth_error (s_peers s') q = nth_error (s_peers s) q).
Proof.
  intros P s c rx tx s' p m Re V Eo Ty E. pose proof (reachable_inv P _ Re) as I.
  pose proof (exec_msg_ok P c rx tx s s' _ I V Eo E) as M.
  pose proof (first_type_of _ _ Ty) as FT. cbn [mt_of] in FT.
  inversion M as [| | | |q y hh ic core s4 FT' L Hi Hp Hh Hs Hn Hc CS R'| | | | | | | |]; try congruence.
  assert (q = p) by congruence. subst q s4.
  pose proof (st_rel_self _ _ _ _ _ R') as X'. unfold pe in X'.
  destruct (resp_parse rx) as (E1 & E2 & E3 & E4 & E5 & E6). cbn zeta in *.
  assert (wf_ic ic) as WC.
  { eapply (wf_ic_of P (parse_rh (env_payload RH_LEN rx)) hh s); [now apply wf_rx_rh|exact Hc]. }
  destruct V as [_ T2]. rewrite Eo in T2.
  destruct (ic_msg_fields P (c_now c) y hh core ic tx WC T2) as (G1 & G2 & G3 & G4).
  destruct (handle_rh_compute_sidi P s hh _ ic core Hc) as (_ & _ & _ & F1 & F2 & F3 & _).
  eexists _, _, _, _, (ic_msg P (c_now c) y hh core ic tx).
  split; [exact Hp|]. split; [exact Hh|]. split.
  { unfold answers. cbn zeta. rewrite <- E2. split; [exact Hs|]. split; [exact Hn|].
    rewrite E2. unfold handle_rh_compute in Hc. rewrite E1, E2, E3, E4, E5, E6 in Hc.
    destruct (decrypt_and_mix _ _ _ (resp_auth rx)) as [[e c2]|] eqn:D in Hc; [|discriminate].
    apply dm_opens in D. destruct D as [D _]. eexists. exact D. }
  split; [eapply (mac_checked P s (p_alg y) RH_LEN rx); [exact L|exact CS]|].
  split; [congruence|]. split; [apply commit_head|].
  rewrite G1, G2, G3, F1, F2, F3. split; [exact E2|]. split; [exact E1|]. split; [assumption|].
  split; [exact X'|]. split; [reflexivity|]. split; [reflexivity|].
  split; [transitivity (hs_sid hh); [reflexivity|congruence]|].
  intros q N. pose proof (sr_pe _ _ _ _ _ R' q) as Q. unfold pe in Q. rewrite Q.
  now rewrite (proj2 (Nat.eqb_neq p q)) by congruence.
Qed.
Print Assumptions C54_resp_hello.

(** The peer has no handshake waiting for a RespHello. *)
Definition no_hello_due (p : nat) (s : srv) : Prop :=
  forall x h, nth_error (s_peers s) p = Some x -> p_handshake x = Some h -> hs_next h = ExpRespConf.

Section Once.
Context (P : prims).

Lemma nhd_rel s s' p q x' f : st_rel s s' q x' f -> no_hello_due p s ->
  (q = p -> forall h, p_handshake x' = Some h -> hs_next h = ExpRespConf) -> no_hello_due p s'.
Proof.
  intros R K Kx y h Hy Hh. pose proof (sr_pe _ _ _ _ _ R p) as Q. unfold pe in Q. rewrite Q in Hy.
  destruct (Nat.eqb_spec q p) as [E|N]; [injection Hy as <-; eauto|]. eapply K; eauto.
Qed.
Lemma nhd_peers p s s' : s_peers s' = s_peers s -> no_hello_due p s -> no_hello_due p s'.
Proof. intros E K x h H. rewrite E in H. eapply K; eauto. Qed.
(** A handshake that was there before and kept its state. *)
Lemma nhd_keep s s' p q x x' f : st_rel s s' q x' f -> pe s q = Some x -> no_hello_due p s ->
  (forall h', p_handshake x' = Some h' -> exists h, p_handshake x = Some h /\ hs_next h' = hs_next h) ->
  no_hello_due p s'.
Proof.
  intros R X K Kx. eapply nhd_rel; [exact R|exact K|]. intros -> h' H'.
  destruct (Kx h' H') as (h & H & ->). eapply K; eauto.
Qed.

Lemma nhd_ic_failed p s s' ic a : length (ic_biscuit ic) = 116 ->
  no_hello_due p s -> ic_failed P s ic a s' -> no_hello_due p s'.
Proof.
  intros L K [[-> _]|(q & x & bno & core & q' & A & N & E & R)]; auto.
  assert (pe s q = Some x) as X by (eapply ic_accept_bno; eauto).
  eapply nhd_keep; [exact R|exact X|exact K|]. cbn. eauto.
Qed.

Lemma nhd_msgstep now c rx tx p s s' r : inv P s -> msgstep P now c rx tx s s' r ->
  no_hello_due p s -> no_hello_due p s'.
Proof.
  intros I M K.
  destruct M as [e|q x ck a e FT L T|q x ck FT L T CS
    |q x h' ic core s3 FT L Hi Hp Hh Hs Hn Hc CS R'
    |q x h' ic core s3 FT L Hi Hp Hh Hs Hn Hc CS R'
    |q x k' FT L EK Hp Hk Hm CS
    |e s3 s2 FT L EK F1 F2 K1 K2
    |u0 a q x bno core s3 e FT L EK HA K0 K1 HI SF R'
    |u0 q x bno core s3 s2 FT L EK HA K0 K1 HI SF R' CS R2
    |q x h u FT L Hi Hp Hh Hs Hn Hu CS Hc D
    |q x h u s1 pt FT L Hi Hp Hh Hs Hn Hu CS Hc D R'
    |q x h mac v FT L Hi Hp Hd Hh Hm D
    |q x h mac v FT L Hi Hp Hd Hh Hm D]; auto.
  - eapply nhd_peers; [|exact K]. apply after_biscuit_frame.
  - eapply nhd_peers; [|exact K]. apply after_biscuit_frame.
  - eapply nhd_rel; [exact R'|exact K|]. intros _ h E. rewrite <- (some_inj _ _ E). reflexivity.
  - eapply nhd_rel; [exact R'|exact K|]. intros _ h E. rewrite <- (some_inj _ _ E). reflexivity.
  - assert (length (ic_biscuit (parse_ic (env_payload IC_LEN rx))) = 116) as Lb by apply (wf_rx_ic rx L).
    eapply nhd_ic_failed; [exact Lb| |exact F2]. eapply nhd_ic_failed; [exact Lb|exact K|exact F1].
  - assert (length (ic_biscuit (parse_ic (env_payload IC_LEN rx))) = 116) as Lb by apply (wf_rx_ic rx L).
    eapply nhd_rel; [exact R'| |].
    + destruct HA as [[_ ->]|[_ F]]; [exact K|]. eapply nhd_ic_failed; eauto.
    + intros _ h E. discriminate E.
  - assert (length (ic_biscuit (parse_ic (env_payload IC_LEN rx))) = 116) as Lb by apply (wf_rx_ic rx L).
    eapply nhd_rel; [exact R2| |].
    + eapply nhd_rel; [exact R'| |].
      * destruct HA as [[_ ->]|[_ F]]; [exact K|]. eapply nhd_ic_failed; eauto.
      * intros _ h E. discriminate E.
    + intros _ h E. discriminate E.
  - eapply nhd_keep; [eapply with_peer_rel, Hp|exact Hp|exact K|]. cbn. eauto.
  - eapply nhd_rel; [exact R'|exact K|]. intros _ h0 E. discriminate E.
  - eapply nhd_keep; [eapply with_peer_rel, Hp|exact Hp|exact K|].
    intros h0 E. rewrite <- (some_inj _ _ E). exists h. split; [exact Hh|reflexivity].
  - eapply nhd_keep; [eapply with_peer_rel, Hp|exact Hp|exact K|].
    intros h0 E. rewrite <- (some_inj _ _ E). exists h. split; [exact Hh|reflexivity].
Qed.

Lemma nhd_step c p s s' r : inv P s -> (forall tx, c_op c <> OInitiate p tx) ->
  step P c s s' r -> no_hello_due p s -> no_hello_due p s'.
Proof.
  intros I Ni S K.
  destruct S as [psk pk a ds Eo|psk pk a ds Eo|q tx q' Eo|q tx x s1 Eo X Hc R
    |rx tx s1 r Eo M|rx tx host s1 r Eo M|s1 r Eo M|q tx r Eo|q r Eo]; auto.
  - intros y h Hy Hh. cbn [s_peers set_peers] in Hy.
    destruct (Nat.lt_ge_cases p (length (s_peers s))) as [Lq|Lq].
    + rewrite nth_error_app1 in Hy by exact Lq. eapply K; eauto.
    + rewrite nth_error_app2 in Hy by exact Lq.
      destruct (p - length (s_peers s)) as [|n]; cbn in Hy; [|destruct n; discriminate].
      injection Hy as <-. discriminate Hh.
  - eapply nhd_rel; [exact R|exact K|]. intros ->. destruct (Ni tx Eo).
  - eapply nhd_msgstep; eauto.
  - destruct M as [e|s1 r F M|s1 r F L Hc M|e F|i l F L El Hc]; auto.
    + eapply nhd_msgstep; eauto.
    + eapply nhd_msgstep; [|exact M|]; [apply cs_choice_good, I|].
      eapply nhd_peers; [|exact K]. apply cs_choice_frame.
    + eapply nhd_peers; [|exact K]. apply cs_choice_frame.
    + eapply nhd_peers; [|exact K]. apply cs_choice_frame.
  - destruct (pollstep_pscan P _ _ _ _ _ I M) as (s2 & -> & Sc).
    eapply nhd_peers with (s := s2); [reflexivity|].
    refine (pscan_ind_inv P _ _ (no_hello_due p) _ _ _ _ _ _ Sc _).
    + intros t q x t' r' It X PP Kt.
      assert (forall h', p_handshake (drop_hs (c_now c) x) = Some h' ->
        exists h, p_handshake x = Some h /\ hs_next h' = hs_next h) as Kd.
      { intros h'. unfold drop_hs. destruct (hs_dead _ _); cbn; [discriminate|]. eauto. }
      destruct PP as [t' E R|t' E R|t' E R|t' E R _]; (eapply nhd_keep; [exact R|exact X|exact Kt|]).
      * exact Kd.
      * exact Kd.
      * unfold retried. destruct (p_handshake (drop_hs (c_now c) x)) as [h|] eqn:Eh; [|intros ? E'; congruence].
        cbn. intros h' [= <-]. destruct (Kd h eq_refl) as (h0 & H0 & E0). exists h0. split; [exact H0|exact E0].
      * unfold drop_known. destruct (known_dead _ _); exact Kd.
    + eapply nhd_peers; [|exact K]. apply erase_keys_frame.
Qed.
End Once.

(** Once a RespHello was accepted for peer [p], no further RespHello is accepted for [p], whatever
    happens, until this server initiates again with [p]. *)
Theorem C54_once : forall P s c rx tx s1 p m h s2 c' rx' s3 r,
  reachable P s -> valid c s -> c_op c = OMsg rx tx -> is_type x82 rx ->
  exec P c s = (s1, Ok (RHandled {| mr_exchanged := Some p; mr_resp := m |})) ->
  run P s1 h s2 -> (forall d e tx, In (d, e) h -> c_op d <> OInitiate p tx) ->
  valid c' s2 -> received c' = Some rx' -> is_type x82 rx' -> exec P c' s2 = (s3, r) ->
  ~ exchanged r p.
Proof.
  intros P s c rx tx s1 p m h s2 c' rx' s3 r Re V Eo Ty E Rn Ni V' Eo' Ty' E' [m' ->].
  destruct (C54_resp_hello P s c rx tx s1 p m Re V Eo Ty E)
    as (x & h0 & x' & h' & ic & _ & _ & _ & _ & _ & _ & _ & _ & _ & X' & H' & N' & _).
  pose proof (reachable_inv P _ Re) as I. pose proof (exec_inv P _ _ _ _ I V E) as I1.
  assert (no_hello_due p s1) as K1. { intros y k Y Hk. congruence. }
  assert (no_hello_due p s2) as K2.
  { refine (run_if_ind_inv P (fun d _ => forall tx, c_op d <> OInitiate p tx) (no_hello_due p) _ s1 h s2 I1 _ K1).
    - intros d t t' e It _ Q S. eapply nhd_step; eauto.
    - clear -Rn Ni. induction Rn as [|s d e t h u Vd Ed R IH]; [constructor|].
      econstructor; [exact Vd| |exact Ed|].
      + intros tx. eapply Ni. left. reflexivity.
      + apply IH. intros d' e' tx Hin. eapply Ni. right. exact Hin. }
  pose proof (run_inv P _ _ _ I1 Rn) as I2.
  pose proof (first_type_of _ _ Ty') as FT. cbn [mt_of] in FT.
  unfold received in Eo'. destruct (c_op c') as [|? ?|rx0 tx0|rx0 tx0 host| | |] eqn:O; try discriminate;
    injection Eo' as ->.
  - pose proof (exec_msg_ok P c' rx' tx0 s2 s3 _ I2 V' O E') as M.
    inversion M as [| | | |q y hh ic' core s4 FT' L Hi Hp Hh Hs Hn Hc CS R'| | | | | | | |]; try congruence.
    assert (q = p) by congruence. subst q. rewrite (K2 y hh Hp Hh) in Hn. discriminate Hn.
  - pose proof (exec_load_ok P c' rx' tx0 host s2 s3 _ I2 V' O E') as M.
    inversion M; congruence.
Qed.
Print Assumptions C54_once.

(** A's acceptance of m2 in the demonstration; sending m2 again is an error. *)
Example C54_nonvacuous :
  reachable Demo.P Demo.A2 /\ valid Demo.cA3 Demo.A2 /\ is_type x82 Demo.m2 /\
  exec Demo.P Demo.cA3 Demo.A2 =
    (Demo.A3, Ok (RHandled {| mr_exchanged := Some 0; mr_resp := Some Demo.m3 |})) /\
  valid Demo.cA3 Demo.A3 /\ exists e, exec Demo.P Demo.cA3 Demo.A3 = (Demo.A3, Err e).
Proof.
  split; [exact reachA2|]. split; [Demo.okv|]. split; [reflexivity|]. split; [vm_compute; reflexivity|].
  split; [Demo.okv|]. eexists. vm_compute. reflexivity.
Qed.
