(** C02, C03, C04, C16: replay protection, statelessness for InitHello, cached replies and
    biscuit numbers. *)
From Verif Require Import Base ConstTime Prims HashDomains Wire Server Protocol Wp Inv Rules Calls PollRules System Trans Spec Demo.
From Coq Require Strings.String.
Import (notations) Coq.Strings.String.

(** Every message call is one [msgstep], possibly after choosing cookie secrets. *)
Lemma handled_msgstep P c rx s s' m :
  inv P s -> valid c s -> received c = Some rx -> exec P c s = (s', Ok (RHandled m)) ->
  exists tx s0, (s0 = s \/ s0 = fst (cs_choice (c_now c) (c_coins c) s)) /\ 1100 <= length tx /\
    (msgstep P (c_now c) (c_coins c) rx tx s0 s' (Ok m) \/
     (first_type rx = Some MInitHello /\ s' = s0 /\ mr_exchanged m = None /\
      exists m', mr_resp m = Some m' /\ is_type x86 m')).
Proof.
  intros I V Rc E. unfold received in Rc.
  destruct (c_op c) as [| |rx' tx|rx' tx host| | |] eqn:Eo; try discriminate; injection Rc as ->;
    (assert (1100 <= length tx) as LT by (destruct V as [_ V]; rewrite Eo in V; exact V)).
  - exists tx, s. split; auto. split; auto. left. eapply exec_msg_ok; eauto.
  - pose proof (exec_load_ok P c rx tx host s s' m I V Eo E) as M.
    inversion M; subst.
    + exists tx, s. auto.
    + exists tx. eexists. split; [right; reflexivity|]. split; [exact LT|]. left. eassumption.
    + exists tx. eexists. split; [right; reflexivity|]. split; [exact LT|].
      right. repeat split; auto. eexists. split; reflexivity.
Qed.

Lemma cs_choice_same now c s :
  s_peers (fst (cs_choice now c s)) = s_peers s /\ s_index (fst (cs_choice now c s)) = s_index s /\
  s_spkm (fst (cs_choice now c s)) = s_spkm s /\
  (forall b, named_key (fst (cs_choice now c s)) b = named_key s b) /\
  s_bctr (fst (cs_choice now c s)) = s_bctr s.
Proof.
  destruct (cs_choice_frame now c s) as (A & B & C & D & E & F & G & _).
  repeat match goal with |- _ /\ _ => split end; auto.
  intros b. unfold named_key. now rewrite D, E.
Qed.

(** * C02 *)

(** An InitConf (type 0x83) that completes an exchange with [p]: its biscuit opens with the
    named key to a number larger than everything accepted from [p] before, and the number is
    remembered. *)
Lemma accepted_conf P c rx s s' r p :
  inv P s -> valid c s -> received c = Some rx -> is_type x83 rx ->
  exec P c s = (s', r) -> exchanged r p ->
  exists x x' pt,
    pe s p = Some x /\ pe s' p = Some x' /\
    biscuit_opens P (p_alg x) (s_spkm s) (named_key s (conf_biscuit rx)) (conf_sidi rx)
      (conf_sidr rx) (conf_biscuit rx) pt /\
    (le_dec (p_biscuit_used x) < biscuit_number pt)%N /\
    le_dec (p_biscuit_used x') = biscuit_number pt.
Proof.
  intros I V Rc Ty E (m & ->).
  destruct (handled_msgstep P c rx s s' _ I V Rc E) as (tx & s0 & Hs0 & LT & [M|(FT & _)]).
  2:{ apply first_type_of in Ty. cbn in Ty. congruence. }
  apply first_type_of in Ty. cbn in Ty.
  destruct (cs_choice_same (c_now c) (c_coins c) s) as (EP & EI & EPK & EK & _).
  inversion M; subst; try congruence.
  match goal with H : length rx = 176 |- _ => rename H into L end.
  match goal with H : ic_accept _ _ _ _ = inl _ |- _ => rename H into HI end.
  match goal with H : _ /\ _ \/ _ /\ _ |- _ => rename H into HA end.
  match goal with K : keep P s0 s1 |- _ => rename K into K0 end.
  destruct (ic_accept_spec P _ _ _ _ _ _ _ L HI) as (pt & O & -> & Fp & X & Lt).
  assert (rest s1 = rest s0) as ER.
  { destruct HA as [[_ ->]|[_ F]]; auto. eapply ic_failed_rest; eauto. }
  rewrite (rest_key _ _ _ ER), (rest_pk _ _ ER) in O.
  assert (exists y, pe s p = Some y /\ p_alg y = p_alg x /\
    (le_dec (p_biscuit_used y) <= le_dec (p_biscuit_used x))%N) as (y & Y & Ya & Yb).
  { pose proof (inv_pe P s1 (KPeer (biscuit_peer pt)) p (g_inv _ _ _ (proj1 K0)) Fp) as [x0 X0].
    assert (p < npeers s) as Lp.
    { apply pe_lt in X0. rewrite (g_n _ _ _ (proj1 K0)) in X0.
      destruct Hs0 as [->| ->]; auto. unfold npeers in *. now rewrite EP in X0. }
    destruct (pe_some s p Lp) as [y Y]. exists y. split; auto.
    assert (pe s0 p = Some y) as Y0.
    { destruct Hs0 as [->| ->]; auto. unfold pe. now rewrite EP. }
    destruct (ev_pe _ _ (g_evo _ _ _ (proj1 K0)) p y Y0) as (x1 & X1 & W).
    rewrite X in X1. injection X1 as <-. destruct W. split; congruence. }
  match goal with R : st_rel _ s' p _ _ |- _ => rename R into R2 end.
  exists y. eexists. exists pt.
  split; [exact Y|]. split; [eapply st_rel_self; exact R2|].
  split; [|split].
  - rewrite Ya. destruct Hs0 as [->| ->]; auto. now rewrite EK, EPK in O.
  - lia.
  - reflexivity.
Qed.

(** For every history, if two InitConf messages complete exchanges with the same peer, the
    later one carries the larger biscuit number. *)
Theorem C02_biscuit_numbers_increase : forall P s0 h1 c1 r1 h2 c2 r2 h3 s s1 s2 rx1 rx2 p,
  initial s0 ->
  run P s0 h1 s1 -> run P s1 ((c1, r1) :: h2) s2 -> run P s2 ((c2, r2) :: h3) s ->
  received c1 = Some rx1 -> is_type x83 rx1 -> exchanged r1 p ->
  received c2 = Some rx2 -> is_type x83 rx2 -> exchanged r2 p ->
  exists a pt1 pt2,
    biscuit_opens P a (s_spkm s1) (named_key s1 (conf_biscuit rx1))
      (conf_sidi rx1) (conf_sidr rx1) (conf_biscuit rx1) pt1 /\
    biscuit_opens P a (s_spkm s2) (named_key s2 (conf_biscuit rx2))
      (conf_sidi rx2) (conf_sidr rx2) (conf_biscuit rx2) pt2 /\
    (biscuit_number pt1 < biscuit_number pt2)%N.
Proof.
  intros P s0 h1 c1 r1 h2 c2 r2 h3 s s1 s2 rx1 rx2 p I R1 R2 R3 Rc1 T1 X1 Rc2 T2 X2.
  pose proof (run_inv P _ _ _ (initial_inv P _ I) R1) as I1.
  inversion R2 as [|? ? ? t1 ? ? V1 E1 R2']; subst.
  inversion R3 as [|? ? ? t2 ? ? V2 E2 R3']; subst.
  pose proof (exec_inv P _ _ _ _ I1 V1 E1) as It1.
  pose proof (run_inv P _ _ _ It1 R2') as I2.
  destruct (accepted_conf P c1 rx1 s1 t1 r1 p I1 V1 Rc1 T1 E1 X1)
    as (x & x' & pt1 & Hx & Hx' & O1 & _ & U1).
  destruct (accepted_conf P c2 rx2 s2 t2 r2 p I2 V2 Rc2 T2 E2 X2)
    as (y & y' & pt2 & Hy & Hy' & O2 & L2 & _).
  destruct (ev_pe _ _ (exec_evo P _ _ _ _ I1 V1 E1) p x Hx) as (x1 & Hx1 & W1).
  destruct (ev_pe _ _ (run_evo P _ _ _ It1 R2') p x' Hx') as (y1 & Hy1 & W2).
  rewrite Hx' in Hx1. injection Hx1 as <-. rewrite Hy in Hy1. injection Hy1 as <-.
  exists (p_alg x), pt1, pt2. split; [exact O1|].
  assert (p_alg y = p_alg x) as Ea by (destruct W1, W2; congruence).
  rewrite <- Ea. split; [exact O2|]. destruct W2 as [_ _ _ _ B]. lia.
Qed.
Print Assumptions C02_biscuit_numbers_increase.

(** Hence the same InitConf (same biscuit for the same session ids) is accepted twice only if
    its biscuit ciphertext opens to different contents under two different keys. *)
Theorem C02_no_biscuit_twice : forall P s0 h1 c1 r1 h2 c2 r2 h3 s s1 s2 rx1 rx2 p,
  initial s0 ->
  run P s0 h1 s1 -> run P s1 ((c1, r1) :: h2) s2 -> run P s2 ((c2, r2) :: h3) s ->
  received c1 = Some rx1 -> is_type x83 rx1 -> exchanged r1 p ->
  received c2 = Some rx2 -> is_type x83 rx2 -> exchanged r2 p ->
  conf_biscuit rx1 = conf_biscuit rx2 -> conf_sidi rx1 = conf_sidi rx2 ->
  conf_sidr rx1 = conf_sidr rx2 ->
  exists a ad k1 k2 pt1 pt2, k1 <> k2 /\ pt1 <> pt2 /\
    ad = hashed P a (domain P a ["biscuit additional data"%string])
           [s_spkm s0; conf_sidi rx1; conf_sidr rx1] /\
    xdec P k1 ad (conf_biscuit rx1) = Some pt1 /\ xdec P k2 ad (conf_biscuit rx1) = Some pt2.
Proof.
  intros P s0 h1 c1 r1 h2 c2 r2 h3 s s1 s2 rx1 rx2 p I R1 R2 R3 Rc1 T1 X1 Rc2 T2 X2 Eb Ei Er.
  destruct (C02_biscuit_numbers_increase P s0 h1 c1 r1 h2 c2 r2 h3 s s1 s2 rx1 rx2 p)
    as (a & pt1 & pt2 & O1 & O2 & L); auto.
  pose proof (run_evo P _ _ _ (initial_inv P _ I) R1) as V1.
  pose proof (run_evo P _ _ _ (initial_inv P _ I) (run_app P _ _ _ _ _ R1 R2)) as V2.
  unfold biscuit_opens in *. rewrite (ev_pk _ _ V1) in O1. rewrite (ev_pk _ _ V2) in O2.
  rewrite <- Eb, <- Ei, <- Er in O2.
  exists a. eexists. exists (named_key s1 (conf_biscuit rx1)), (named_key s2 (conf_biscuit rx1)), pt1, pt2.
  assert (pt1 <> pt2) as N by (intros ->; lia).
  split; [|split; [exact N|split; [reflexivity|split; assumption]]].
  intros K. rewrite K in O1. congruence.
Qed.
Print Assumptions C02_no_biscuit_twice.

(** In particular a replay within the life of the key is refused. *)
Theorem C02_replay_refused : forall P s0 h1 c1 r1 h2 s1 s2 rx p c2 s3 r2,
  initial s0 -> run P s0 h1 s1 -> run P s1 ((c1, r1) :: h2) s2 ->
  received c1 = Some rx -> is_type x83 rx -> exchanged r1 p ->
  named_key s2 (conf_biscuit rx) = named_key s1 (conf_biscuit rx) ->
  valid c2 s2 -> received c2 = Some rx -> exec P c2 s2 = (s3, r2) -> ~ exchanged r2 p.
Proof.
  intros P s0 h1 c1 r1 h2 s1 s2 rx p c2 s3 r2 I R1 R2 Rc1 T1 X1 K V2 Rc2 E2 X2.
  destruct (C02_biscuit_numbers_increase P s0 h1 c1 r1 h2 c2 r2 [] s3 s1 s2 rx rx p)
    as (a & pt1 & pt2 & O1 & O2 & L); auto.
  { econstructor; eauto. constructor. }
  pose proof (run_evo P _ _ _ (initial_inv P _ I) R1) as W1.
  pose proof (run_evo P _ _ _ (initial_inv P _ I) (run_app P _ _ _ _ _ R1 R2)) as W2.
  unfold biscuit_opens in *. rewrite (ev_pk _ _ W1) in O1. rewrite (ev_pk _ _ W2), K in O2.
  assert (pt1 = pt2) by congruence. subst. lia.
Qed.
Print Assumptions C02_replay_refused.

(** Non-vacuity: the third message of the toy handshake is such an InitConf. *)
Example C02_nonvacuous :
  received Demo.cB3 = Some Demo.m3 /\ is_type x83 Demo.m3 /\ exchanged (snd Demo.rB3) 0 /\
  run Demo.P Demo.B0 Demo.hB Demo.B3.
Proof.
  split; [reflexivity|]. split; [reflexivity|]. split; [|exact Demo.runB].
  eexists. reflexivity.
Qed.

(** * C03 *)

(** Whatever is received as InitHello (type 0x81), accepted or rejected, with or without
    load: no peer and no index entry changes, nor does anything else but the biscuit counter
    and keys (and, under load, the cookie secrets). *)
Theorem C03_init_hello_keeps_no_state : forall P s c rx s' r,
  reachable P s -> valid c s -> received c = Some rx -> is_type x81 rx ->
  exec P c s = (s', r) ->
  s_peers s' = s_peers s /\ s_index s' = s_index s /\ s_khkey s' = s_khkey s /\
  s_sskm s' = s_sskm s /\ s_spkm s' = s_spkm s /\ s_poll_off s' = s_poll_off s /\
  ((exists tx, c_op c = OMsg rx tx) -> s_cs0 s' = s_cs0 s /\ s_cs1 s' = s_cs1 s).
Proof.
  intros P s c rx s' r R V Rc Ty E. pose proof (reachable_inv P s R) as I.
  apply first_type_of in Ty. cbn in Ty.
  assert (forall tx s0 s1 r0, msgstep P (c_now c) (c_coins c) rx tx s0 s1 r0 ->
    s_peers s1 = s_peers s0 /\ s_index s1 = s_index s0 /\ s_khkey s1 = s_khkey s0 /\
    s_sskm s1 = s_sskm s0 /\ s_spkm s1 = s_spkm s0 /\ s_poll_off s1 = s_poll_off s0 /\
    s_cs0 s1 = s_cs0 s0 /\ s_cs1 s1 = s_cs1 s0) as K.
  { intros tx s0 s1 r0 M. inversion M; subst; try congruence;
      try (repeat split; reflexivity);
      destruct (after_biscuit_frame (c_now c) (c_coins c) s0) as (A1&A2&A3&A4&A5&A6&A7&A8&A9);
      auto 10. }
  unfold received in Rc.
  destruct (c_op c) as [| |rx' tx|rx' tx host| | |] eqn:Eo; try discriminate; injection Rc as ->.
  - destruct (exec_msg_step P c rx tx s s' r I V Eo E) as (r0 & M & _).
    destruct (K _ _ _ _ M) as (A1&A2&A3&A4&A5&A6&A7&A8). auto 10.
  - destruct (exec_load_step P c rx tx host s s' r I V Eo E) as (r0 & M & _).
    destruct (cs_choice_frame (c_now c) (c_coins c) s) as (B1&B2&B3&B4&B5&B6&B7&B8&B9).
    inversion M; subst; try congruence;
      try (match goal with H : msgstep _ _ _ _ _ _ _ _ |- _ => apply K in H end;
           destruct H2 as (A1&A2&A3&A4&A5&A6&A7&A8));
      repeat match goal with |- _ /\ _ => split end; try congruence; intros (? & [=]).
Qed.
Print Assumptions C03_init_hello_keeps_no_state.

Example C03_nonvacuous :
  received Demo.cB2 = Some Demo.m1 /\ is_type x81 Demo.m1 /\
  (exists m, replied (snd Demo.rB2) m) /\ s_bctr Demo.B2 <> s_bctr Demo.B1 /\
  s_peers Demo.B2 = s_peers Demo.B1.
Proof.
  split; [reflexivity|]. split; [reflexivity|]. split; [do 2 eexists; reflexivity|].
  split; [|reflexivity]. vm_compute. discriminate.
Qed.

(** * C04 *)

Section Cache.
Context (P : prims).

Lemma cached_answer now rx tx s p x k :
  inv P s -> pe s p = Some x -> p_known x = Some k -> kr_mac k = known_hash P s rx ->
  length rx = 176 -> check_seal P s (p_alg x) IC_LEN rx = true ->
  msg_init_conf P now rx tx s = (s, Ok (handled None (Some (cached_msg P x k)))).
Proof.
  intros I X K M L CS. unfold msg_init_conf. rewrite L.
  change (Nat.eqb 176 (env_len IC_LEN)) with true.
  unfold ensure at 1. unfold bind at 1. unfold ret at 1. unfold bind at 1, get at 1.
  pose proof (i_known2 P s I p x k X K) as E. rewrite M in E. unfold ix in E. rewrite E.
  unfold bind at 1, get_peer. unfold pe in X. rewrite X. rewrite CS.
  unfold ensure, bind at 1, ret at 1. rewrite K. reflexivity.
Qed.

Lemma known_hash_prefix s rx rx' :
  firstn 160 rx' = firstn 160 rx -> known_hash P s rx' = known_hash P s rx.
Proof. intros E. unfold known_hash, env_upto_cookie, IC_LEN. cbn [plus]. now rewrite E. Qed.

Lemma check_seal_prefix s a rx rx' :
  firstn 160 rx' = firstn 160 rx -> length rx' = 176 -> length rx = 176 ->
  check_seal P s a IC_LEN rx' = check_seal P s a IC_LEN rx.
Proof.
  intros E L' L. unfold check_seal, env_mac, env_upto_mac, IC_LEN, slice. cbn [plus].
  assert (firstn 144 rx' = firstn 144 rx) as E1.
  { replace 144 with (Nat.min 144 160) by reflexivity. rewrite <- !firstn_firstn. now rewrite E. }
  assert (firstn 16 (skipn 144 rx') = firstn 16 (skipn 144 rx)) as E2.
  { replace 16 with (160 - 144) by reflexivity. rewrite <- !skipn_firstn_comm. now rewrite E. }
  now rewrite E1, E2.
Qed.

(** [p]'s cached reply stays. *)
Definition kept (p : nat) (k : known) (s : srv) : Prop :=
  exists x, pe s p = Some x /\ p_known x = Some k.

Lemma kept_st_rel s s' p k q y y' f :
  kept p k s -> pe s q = Some y -> st_rel s s' q y' f -> (q = p -> p_known y' = p_known y) ->
  kept p k s'.
Proof.
  intros (x & X & K) Y R H. unfold kept. rewrite (sr_pe _ _ _ _ _ R).
  destruct (Nat.eqb_spec q p) as [->|N]; [|eauto].
  exists y'. split; auto. rewrite H by reflexivity. congruence.
Qed.
Lemma kept_frame s s' p k : s_peers s' = s_peers s -> kept p k s -> kept p k s'.
Proof. intros E (x & X & K). exists x. unfold pe in *. now rewrite E. Qed.

Lemma kept_ic_failed s s' ic a p k :
  length (ic_biscuit ic) = 116 -> kept p k s -> ic_failed P s ic a s' -> kept p k s'.
Proof.
  intros L K [[-> _]|(q & x & bno & core & q' & A & _ & _ & R)]; auto.
  destruct (ic_accept_bno P _ _ _ _ _ _ _ L A) as (_ & X & _).
  eapply kept_st_rel; eauto.
Qed.

Lemma kept_msgstep now c rx tx s s' r p k :
  kept p k s -> msgstep P now c rx tx s s' r ->
  (is_type x83 rx -> forall m, r <> Ok (handled (Some p) m)) -> kept p k s'.
Proof.
  intros K M N. destruct M as [e|q x ck a e FT L T|q x ck FT L T CS
    |q x h ic core s1 FT L Hi Hp Hh Hs Hn Hc CS R
    |q x h ic core s1 FT L Hi Hp Hh Hs Hn Hc CS R
    |q x k' FT L EK Hp Hk Hm CS
    |e s1 s2 FT L EK F1 F2 K1 K2
    |s0 a q x bno core s1 e FT L EK HA K0 K1 HI SF R
    |s0 q x bno core s1 s2 FT L EK HA K0 K1 HI SF R CS R2
    |q x h u FT L Hi Hp Hh Hs Hn Hu CS Ht D
    |q x h u s1 pt FT L Hi Hp Hh Hs Hn Hu CS Ht D R
    |q x h mac v FT L Hi Hp Hd Hh Hm D
    |q x h mac v FT L Hi Hp Hd Hh Hm D]; auto.
  - destruct (after_biscuit_frame now c s) as (_&_&_&E&_). eapply kept_frame; eauto.
  - destruct (after_biscuit_frame now c s) as (_&_&_&E&_). eapply kept_frame; eauto.
  - eapply kept_st_rel; eauto.
  - eapply kept_st_rel; eauto.
  - pose proof (wf_rx_ic rx L) as (W1 & W2 & W3 & W4).
    eapply kept_ic_failed; [exact W3| |exact F2]. eapply kept_ic_failed; [exact W3| |exact F1]. auto.
  - pose proof (wf_rx_ic rx L) as (W1 & W2 & W3 & W4).
    assert (kept p k s0) as C0.
    { destruct HA as [[_ ->]|[_ F]]; auto. eapply kept_ic_failed; eauto. }
    destruct (ic_accept_bno P _ _ _ _ _ _ _ W3 HI) as (_ & X & _).
    eapply kept_st_rel; [exact C0|exact X|exact R|reflexivity].
  - pose proof (wf_rx_ic rx L) as (W1 & W2 & W3 & W4).
    assert (kept p k s0) as C0.
    { destruct HA as [[_ ->]|[_ F]]; auto. eapply kept_ic_failed; eauto. }
    destruct (ic_accept_bno P _ _ _ _ _ _ _ W3 HI) as (_ & X & _).
    assert (kept p k s1) as C1.
    { eapply kept_st_rel; [exact C0|exact X|exact R|reflexivity]. }
    eapply kept_st_rel; [exact C1|eapply st_rel_self; exact R|exact R2|].
    intros ->. exfalso. eapply N; [|reflexivity]. now apply is_type_of in FT.
  - eapply kept_st_rel; [exact K|exact Hp|eapply with_peer_rel; exact Hp|reflexivity].
  - eapply kept_st_rel; [exact K|exact Hp|exact R|reflexivity].
  - eapply kept_st_rel; [exact K|exact Hp|eapply with_peer_rel; exact Hp|reflexivity].
  - eapply kept_st_rel; [exact K|exact Hp|eapply with_peer_rel; exact Hp|reflexivity].
Qed.

Lemma kept_poll now c q x s s' r p k :
  (0 <= kr_received k)%Z -> (now + EVENT_GRACE <= kr_received k + secs 120)%Z ->
  kept p k s -> pe s q = Some x -> peerpoll now c q x s s' r -> kept p k s'.
Proof.
  intros H0 Ht K X PP. destruct PP as [s' Ev R|s' Ev R|s' Ev R|s' Ev R _].
  - eapply kept_st_rel; [exact K|exact X|exact R|]. intros _. unfold drop_hs.
    now destruct (hs_dead _ _).
  - eapply kept_st_rel; [exact K|exact X|exact R|]. intros _. unfold drop_hs.
    now destruct (hs_dead _ _).
  - eapply kept_st_rel; [exact K|exact X|exact R|]. intros _. unfold retried, drop_hs.
    destruct (hs_dead _ _); cbn; auto. now destruct (p_handshake x).
  - eapply kept_st_rel; [exact K|exact X|exact R|]. intros ->.
    destruct K as (y & Y & Hk). rewrite X in Y. injection Y as <-.
    assert (known_dead now (drop_hs now x) = false) as D.
    { unfold known_dead, drop_hs.
      replace (p_known (if hs_dead now x then set_handshake None x else x)) with (p_known x)
        by now destruct (hs_dead now x).
      rewrite Hk. unfold due_opt, known_die_at.
      destruct (Z.ltb_spec (kr_received k) 0) as [|_]; [lia|]. unfold due, has_happened.
      apply Z.ltb_ge. unfold REKEY_AFTER_TIME_RESPONDER. lia. }
    unfold drop_known. rewrite D. unfold drop_hs. now destruct (hs_dead now x).
Qed.

(** A call that does not end the cache entry of an InitConf accepted from [p] at [t]: it is
    not a poll 120 s (less the 2.5 ms event grace) after [t], and it does not complete another
    responder exchange with [p]. *)
Definition keeps_entry (t : time) (p : nat) (c : call) (s : srv) : Prop :=
  (c_op c = OPoll -> (c_now c + 2500 <= t + secs 120)%Z) /\
  (forall rx, received c = Some rx -> is_type x83 rx -> ~ exchanged (snd (exec P c s)) p).

Lemma kept_sys p k c s s' r :
  inv P s -> valid c s -> (0 <= kr_received k)%Z -> keeps_entry (kr_received k) p c s ->
  exec P c s = (s', r) -> kept p k s -> kept p k s'.
Proof.
  intros I V H0 [Ht Hx] E K. rewrite E in Hx. cbn [snd] in Hx.
  pose proof (exec_step P c s s' r I V E) as S.
  destruct (cs_choice_same (c_now c) (c_coins c) s) as (EP & _).
  inversion S as [psk pk a ds Eo|psk pk a ds Eo|q tx q' Eo|q tx x s1 Eo X Fr R
    |rx tx s1 r0 Eo M|rx tx host s1 r0 Eo M|s1 r0 Eo Ps|q tx r0 Eo N|q r0 Eo N]; subst; auto.
  - destruct K as (x & X & K). exists x. split; auto. unfold pe in *. cbn.
    rewrite nth_error_app1; auto. apply nth_error_Some. congruence.
  - eapply kept_st_rel; [exact K|exact X|exact R|reflexivity].
  - eapply kept_msgstep; [exact K|exact M|]. intros Ty m ->.
    apply (Hx rx); [unfold received; now rewrite Eo|exact Ty|now exists m].
  - assert (is_type x83 rx -> forall m, r0 <> Ok (handled (Some p) m)) as N.
    { intros Ty m ->. apply (Hx rx); [unfold received; now rewrite Eo|exact Ty|now exists m]. }
    assert (kept p k (fst (cs_choice (c_now c) (c_coins c) s))) as K1 by (eapply kept_frame; eauto).
    destruct M as [e|s1 r FT M|s1 r FT L CV M|e FT|i l FT L EL CV]; auto.
    + eapply kept_msgstep; [exact K|exact M|exact N].
    + eapply kept_msgstep; [exact K1|exact M|exact N].
  - destruct (pollstep_pscan P _ _ _ _ _ I Ps) as (s2 & -> & S2).
    assert (kept p k s2) as C2.
    { eapply (pscan_ind_inv P _ _ (kept p k)); [|exact S2|].
      - intros. eapply kept_poll; eauto.
      - destruct (erase_keys_frame (c_now c) (c_coins c) s) as (_ & _ & _ & E1 & _).
        eapply kept_frame; eauto. }
    exact C2.
Qed.

Lemma kept_run p k s h s' :
  inv P s -> (0 <= kr_received k)%Z -> run_if P (keeps_entry (kr_received k) p) s h s' ->
  kept p k s -> kept p k s'.
Proof.
  intros I H0 R. induction R as [|s c r s1 h s2 V Hq E R IH]; auto.
  intros K. apply IH; [eapply exec_inv; eauto|]. eapply kept_sys; eauto.
Qed.

End Cache.

(** An InitConf completes an exchange with [p] at time [t] and is answered with [m1].  Then,
    after any calls that do not end the cache entry, the same InitConf, whose last 16 bytes
    (the cookie field) may differ, is answered with the same bytes up to the cookie field
    (type, reserved bytes, payload and mac), no exchange is reported and the server is
    unchanged.  *)
Theorem C04_retransmitted_conf_answered : forall P s0 h1 s1 c1 rx1 s2 r1 p m1 h s3 c2 rx2,
  initial s0 -> run P s0 h1 s1 ->
  valid c1 s1 -> exec P c1 s1 = (s2, r1) ->
  received c1 = Some rx1 -> is_type x83 rx1 -> exchanged r1 p -> replied r1 m1 ->
  (0 <= c_now c1)%Z -> run_if P (keeps_entry P (c_now c1) p) s2 h s3 ->
  valid c2 s3 -> received c2 = Some rx2 -> length rx2 = 176 ->
  firstn 160 rx2 = firstn 160 rx1 ->
  exists m2, exec P c2 s3 = (s3, Ok (RHandled {| mr_exchanged := None; mr_resp := Some m2 |})) /\
    length m2 = 64 /\ firstn 48 m2 = firstn 48 m1 /\ is_type x84 m2.
Proof.
  intros P s0 h1 s1 c1 rx1 s2 r1 p m1 h s3 c2 rx2 I R1 V1 E1 Rc1 T1 (m & ->) (o & Em) H0 R2
    V2 Rc2 L2 Pf.
  injection Em as <- ->.
  pose proof (run_inv P _ _ _ (initial_inv P _ I) R1) as I1.
  pose proof (exec_inv P _ _ _ _ I1 V1 E1) as I2.
  pose proof (run_inv P _ _ _ I2 (run_if_run _ _ _ _ _ R2)) as I3.
  destruct (handled_msgstep P c1 rx1 s1 s2 _ I1 V1 Rc1 E1) as (tx & sa & Hsa & LT & [M|(FT & _)]).
  2:{ apply first_type_of in T1. cbn in T1. congruence. }
  pose proof (first_type_of _ _ T1) as FT1. cbn in FT1.
  remember (Ok {| mr_exchanged := Some p; mr_resp := Some m1 |}) as rr eqn:Er in M.
  destruct M as [e|q x ck a e FT L T|q x ck FT L T CS
    |q x h' ic core t1 FT L Hi Hp Hh Hs Hn Hc CS R
    |q x h' ic core t1 FT L Hi Hp Hh Hs Hn Hc CS R
    |q x k' FT L EK Hp Hk Hm CS
    |e t1 t2 FT L EK F1 F2 K1 K2
    |t0 a q x bno core t1 e FT L EK HA K0 K1 HI SF R
    |t0 q x bno core t1 t2 FT L EK HA K0 K1 HI SF R CS RR
    |q x h' u FT L Hi Hp Hh Hs Hn Hu CS Ht D
    |q x h' u t1 pt FT L Hi Hp Hh Hs Hn Hu CS Ht D R
    |q x h' mac v FT L Hi Hp Hd Hh Hm D
    |q x h' mac v FT L Hi Hp Hd Hh Hm D]; try discriminate Er; try congruence.
  rename L into L1.
  set (rc := rc_of P (ic_session P (c_now c1) x core)) in *.
  set (k := new_known P (c_now c1) sa rx1 tx rc) in *.
  assert (kept p k t2) as K2.
  { injection Er as -> _. eexists. split; [eapply st_rel_self; exact RR|reflexivity]. }
  pose proof (kept_run P p k t2 h s3 I2 H0 R2 K2) as (y & Y & Ky).
  assert (q = p) as -> by (injection Er; auto).
  assert (m1 = commit_msg P (set_known (Some k) (ic_peer P (c_now c1) x bno core)) MEmptyData
                 ED_LEN (ser_ed rc) tx) as Em by (unfold handled in Er; injection Er; auto). clear Er.
  destruct (ev_pe _ _ (run_evo P _ _ _ I2 (run_if_run _ _ _ _ _ R2)) p _
              (st_rel_self _ _ _ _ _ RR)) as (y1 & Y1 & W).
  rewrite Y in Y1. injection Y1 as <-.
  assert (p_alg y = p_alg x /\ p_spkt y = p_spkt x) as [Wa Wk].
  { destruct W as [W1 W2 W3 W4 W5]. cbn in W1, W2, W3, W4. auto. }
  assert (s_spkm s3 = s_spkm sa /\ s_khkey s3 = s_khkey sa) as [Epk Ekh].
  { pose proof (evo_trans _ _ _ (exec_evo P _ _ _ _ I1 V1 E1)
                  (run_evo P _ _ _ I2 (run_if_run _ _ _ _ _ R2))) as [_ Hpk Hkh _ _].
    destruct (cs_choice_frame (c_now c1) (c_coins c1) s1) as (_&F1&_&_&_&_&_&F2&_).
    destruct Hsa as [->| ->]; split; congruence. }
  assert (known_hash P s3 rx2 = known_hash P sa rx1) as Eh.
  { rewrite (known_hash_prefix P s3 rx1 rx2 Pf). unfold known_hash. now rewrite Ekh. }
  assert (check_seal P s3 (p_alg y) IC_LEN rx2 = true) as CS3.
  { rewrite (check_seal_prefix P s3 (p_alg y) rx1 rx2 Pf L2 L1), Wa.
    unfold check_seal. rewrite Epk. exact CS. }
  assert (wf_ed rc) as Wrc.
  { destruct (wp_ses _ (i_wf P t2 I2 p _ (st_rel_self _ _ _ _ _ RR)) _ eq_refl) as [W1 W2].
    apply rc_of_wf. split; auto. }
  exists (cached_msg P y k).
  assert (forall tx2, 1100 <= length tx2 ->
    handle_msg P (c_now c2) (c_coins c2) rx2 tx2 s3 = (s3, Ok (handled None (Some (cached_msg P y k)))))
    as HM.
  { intros tx2 LT2. unfold handle_msg.
    assert (first_type rx2 = Some MInitConf) as FT2.
    { destruct rx2 as [|b2 l2], rx1 as [|b1 l1]; try discriminate.
      cbn [firstn] in Pf. injection Pf as -> _. exact FT1. }
    destruct rx2 as [|b rx2'] eqn:E2; [discriminate|]. rewrite <- E2 in *.
    replace (mt_of b) with (Some MInitConf) by (rewrite E2 in FT2; symmetry; exact FT2).
    replace (length tx2 <? env_len RH_LEN) with false
      by (symmetry; apply Nat.ltb_ge; exact LT2).
    apply (cached_answer P (c_now c2) rx2 tx2 s3 p y k I3 Y Ky); auto. }
  split.
  - unfold exec, received in *. unfold map_ok, bind.
    destruct (c_op c2) as [| |rx tx2|rx tx2 host| | |] eqn:Eo; try discriminate; injection Rc2 as ->;
      (assert (1100 <= length tx2) as LT2 by (destruct V2 as [_ V2]; rewrite Eo in V2; exact V2)).
    + rewrite HM by exact LT2. reflexivity.
    + unfold handle_msg_under_load.
      assert (first_type rx2 = Some MInitConf) as FT2.
      { destruct rx2 as [|b2 l2], rx1 as [|b1 l1]; try discriminate.
        cbn [firstn] in Pf. injection Pf as -> _. exact FT1. }
      destruct rx2 as [|b rx2'] eqn:E2; [discriminate|]. rewrite <- E2 in *.
      replace (mt_of b) with (Some MInitConf) by (rewrite E2 in FT2; symmetry; exact FT2).
      rewrite HM by exact LT2. reflexivity.
  - pose proof (ser_ed_len _ Wrc) as Le.
    assert (length (firstn 4 tx) = 4) as L4 by (rewrite firstn_length; lia).
    assert (env_payload ED_LEN (kr_response k) = ser_ed rc) as Ep.
    { unfold env_payload, k, new_known. cbn [kr_response].
      rewrite (slice_skip' (firstn 4 tx) _ 4 ED_LEN 4) by (auto; lia).
      cbn [Nat.sub]. apply slice_take. exact Le. }
    assert (slice 1 3 (kr_response k) = slice 1 3 tx) as Er.
    { unfold k, new_known. cbn [kr_response]. clear - LT.
      destruct tx as [|b0 [|b1 [|b2 [|b3 tx']]]]; try (cbn in LT; lia). reflexivity. }
    assert (length (kr_response k) = 64) as Lk.
    { unfold k, new_known. cbn [kr_response].
      rewrite !app_length, L4, Le, slice_length; unfold ED_LEN; lia. }
    unfold cached_msg. rewrite Ep. split; [|split].
    + change 64 with (ED_LEN + 36). apply commit_msg_len; auto. rewrite Lk; cbn; lia.
    + rewrite Em. change 48 with (20 + ED_LEN).
      assert (ED_LEN + 36 <= length (kr_response k)) as F1 by (rewrite Lk; cbn; lia).
      assert (ED_LEN + 36 <= length tx) as F2 by (cbn; lia).
      rewrite !commit_upto_cookie by assumption.
      unfold body. rewrite Er. cbn [p_alg p_spkt set_known ic_peer set_handshake set_session set_biscuit_used].
      now rewrite Wa, Wk.
    + apply (commit_type P y MEmptyData ED_LEN (ser_ed rc)); auto. rewrite Lk; cbn; lia.
Qed.
Print Assumptions C04_retransmitted_conf_answered.

(** The reply is kept and the cookie field of the retransmission may differ; a poll and an
    InitHello happen in between. *)
Example C04_nonvacuous :
  let rx2 := firstn 160 Demo.m3 ++ repeat x55 16 in
  let c2 := Demo.mk (secs 100) x11 (OMsg rx2 Demo.tx) in
  exists h s3, h <> [] /\ exchanged (snd Demo.rB3) 0 /\ replied (snd Demo.rB3) Demo.m4 /\
    is_type x83 Demo.m3 /\ rx2 <> Demo.m3 /\
    run_if Demo.P (keeps_entry Demo.P (c_now Demo.cB3) 0) Demo.B3 h s3 /\
    valid c2 s3 /\ length rx2 = 176 /\ firstn 160 rx2 = firstn 160 Demo.m3.
Proof.
  intros rx2 c2.
  set (c := Demo.mk (secs 90) x21 OPoll). set (r := exec Demo.P c Demo.B3).
  exists [(c, snd r)], (fst r). split; [discriminate|].
  split; [eexists; reflexivity|]. split; [eexists; reflexivity|]. split; [reflexivity|].
  split; [vm_compute; discriminate|].
  split; [apply Demo.step_if; [split; [apply Demo.wf_coin|exact Logic.I]| |reflexivity|constructor]|].
  - split; [intros _; vm_compute; discriminate|]. intros rx [=].
  - split; [|split; reflexivity].
    split; [apply Demo.wf_coin|]. apply Demo.leb_le_c. vm_compute. reflexivity.
Qed.

(** * C16 *)

Section Numbers.
Context (P : prims).

Lemma tag_slot i n l : n <> [] -> nonce_slot (tag_nonce i n ++ l) = i.
Proof.
  intros H. destruct n as [|b n]; [congruence|]. unfold tag_nonce, nonce_slot. cbn [app].
  clear. destruct i, b; reflexivity.
Qed.

(** The number in the biscuit of a RespHello [m] sent by [s]. *)
Definition resp_number (a : halg) (s : srv) (m : bytes) (n : N) : Prop :=
  exists pt, biscuit_opens P a (s_spkm s) (named_key s (resp_biscuit m)) (resp_sidi m)
    (resp_sidr m) (resp_biscuit m) pt /\ biscuit_number pt = n.

(** The fields of the RespHello on the wire. *)
Lemma rh_msg_fields now c s x ih a ck tx :
  wf_coins c -> length (ih_sidi ih) = 4 -> length (s_bctr s) = 12 -> 1100 <= length tx ->
  let m := rh_msg P now c s x ih a ck tx in
  resp_sidr m = c_sid c /\ resp_sidi m = ih_sidi ih /\
  resp_biscuit m = rh_biscuit (rh_of P now c s x ih a ck).
Proof.
  intros W L B T. cbn zeta. unfold rh_msg.
  set (rh := rh_of P now c s x ih a ck).
  assert (wf_rh rh) as Wf by now apply rh_of_wf.
  pose proof (ser_rh_len _ Wf) as Ls.
  destruct Wf as (W1 & W2 & W3 & W4 & W5 & W6).
  set (m := commit_msg P x MRespHello RH_LEN (ser_rh rh) tx).
  assert (forall o k, o + k <= RH_LEN -> slice (4 + o) k m = slice o k (ser_rh rh)) as S.
  { intros o k H. apply commit_slice; [exact Ls|exact T|exact H]. }
  split; [|split].
  - unfold resp_sidr. change (slice 4 4 m) with (slice (4 + 0) 4 m). rewrite S by (unfold RH_LEN; lia).
    unfold ser_rh. now rewrite slice_take.
  - unfold resp_sidi. change 8 with (4 + 4). rewrite S by (unfold RH_LEN; lia). unfold ser_rh.
    rewrite (slice_skip' _ _ 4 4 4) by (auto; lia). now rewrite slice_take.
  - unfold resp_biscuit. change 952 with (4 + 948). rewrite S by (unfold RH_LEN; lia). unfold ser_rh.
    rewrite (slice_skip' _ _ 948 116 4) by (auto; lia).
    rewrite (slice_skip' _ _ _ 116 4) by (auto; lia).
    rewrite (slice_skip' _ _ _ 116 768) by (auto; lia).
    rewrite (slice_skip' _ _ _ 116 156) by (auto; lia).
    rewrite (slice_skip' _ _ _ 116 16) by (auto; lia).
    cbn [Nat.sub]. now apply slice_all.
Qed.

(** Its biscuit names the key that was used. *)
Lemma rh_msg_slot now c s x ih a ck tx :
  wf_coins c -> length (ih_sidi ih) = 4 -> length (s_bctr s) = 12 -> 1100 <= length tx ->
  nonce_slot (resp_biscuit (rh_msg P now c s x ih a ck tx)) = biscuit_slot now c s.
Proof.
  intros W L B T. destruct (rh_msg_fields now c s x ih a ck tx W L B T) as (_ & _ & ->).
  unfold rh_of. cbn [rh_biscuit]. unfold biscuit_ct, xenc. apply tag_slot.
  destruct W as (_ & W & _). intros E. rewrite E in W. discriminate.
Qed.

Lemma rh_msg_number now c s x ih a ck tx :
  correct P -> wf_coins c -> length (ih_sidi ih) = 4 -> length (s_bctr s) = 12 ->
  1100 <= length tx ->
  resp_number (p_alg x) (after_biscuit now c s) (rh_msg P now c s x ih a ck tx)
    (le_dec (s_bctr s)).
Proof.
  intros HP W L B T.
  destruct (rh_msg_fields now c s x ih a ck tx W L B T) as (E1 & E2 & E3).
  pose proof (rh_msg_slot now c s x ih a ck tx W L B T) as E4.
  destruct (after_biscuit_frame now c s) as (_ & EP & _).
  unfold resp_number, biscuit_opens. rewrite named_key_slot, E4, E1, E2, E3, EP.
  unfold rh_of. cbn [rh_biscuit]. unfold biscuit_ct. cbn [hc_sidi hc_sidr rh_core].
  eexists. split.
  - apply xdec_xenc; auto. rewrite tag_nonce_len. apply W.
  - unfold biscuit_number, ser_bi. cbn [bi_pidi bi_no bi_ck].
    rewrite (slice_skip' _ _ 32 12 32) by (auto using pidt_len; lia).
    cbn [Nat.sub]. now rewrite slice_take.
Qed.

Lemma rest_bctr s s' : rest s' = rest s -> s_bctr s' = s_bctr s.
Proof. unfold rest. intros [=]. auto. Qed.

(** The counter moves by at most one per message, and only for an InitHello. *)
Definition ticks (s s' : srv) : Prop :=
  s_bctr s' = s_bctr s \/ s_bctr s' = increment (s_bctr s).

Lemma ticks_msgstep now c rx tx s s' r : msgstep P now c rx tx s s' r -> ticks s s'.
Proof.
  intros M. unfold ticks. destruct M as [e|q x ck a e FT L T|q x ck FT L T CS
    |q x h ic core s1 FT L Hi Hp Hh Hs Hn Hc CS R
    |q x h ic core s1 FT L Hi Hp Hh Hs Hn Hc CS R
    |q x k' FT L EK Hp Hk Hm CS
    |e s1 s2 FT L EK F1 F2 K1 K2
    |s0 a q x bno core s1 e FT L EK HA K0 K1 HI SF R
    |s0 q x bno core s1 s2 FT L EK HA K0 K1 HI SF R CS R2
    |q x h u FT L Hi Hp Hh Hs Hn Hu CS Ht D
    |q x h u s1 pt FT L Hi Hp Hh Hs Hn Hu CS Ht D R
    |q x h mac v FT L Hi Hp Hd Hh Hm D
    |q x h mac v FT L Hi Hp Hd Hh Hm D]; auto;
    try (destruct (after_biscuit_frame now c s) as (_&_&E&_); now right);
    try (left; apply rest_bctr; exact (sr_rest _ _ _ _ _ R)).
  - left. rewrite (rest_bctr _ _ (ic_failed_rest P _ _ _ _ F2)).
    now apply rest_bctr, (ic_failed_rest P _ _ _ _ F1).
  - left. rewrite (rest_bctr _ _ (sr_rest _ _ _ _ _ R)).
    destruct HA as [[_ ->]|[_ F]]; auto. now apply rest_bctr, (ic_failed_rest P _ _ _ _ F).
  - left. rewrite (rest_bctr _ _ (sr_rest _ _ _ _ _ R2)), (rest_bctr _ _ (sr_rest _ _ _ _ _ R)).
    destruct HA as [[_ ->]|[_ F]]; auto. now apply rest_bctr, (ic_failed_rest P _ _ _ _ F).
Qed.

Lemma ticks_exec c s s' r : inv P s -> valid c s -> exec P c s = (s', r) -> ticks s s'.
Proof.
  intros I V E. pose proof (exec_step P c s s' r I V E) as S. unfold ticks.
  destruct (cs_choice_same (c_now c) (c_coins c) s) as (_ & _ & _ & _ & EB).
  inversion S as [psk pk a ds Eo|psk pk a ds Eo|q tx q' Eo|q tx x s1 Eo X Fr R
    |rx tx s1 r0 Eo M|rx tx host s1 r0 Eo M|s1 r0 Eo Ps|q tx r0 Eo N|q r0 Eo N]; subst; auto.
  - left. apply rest_bctr. exact (sr_rest _ _ _ _ _ R).
  - eapply ticks_msgstep; eauto.
  - destruct M as [e|s1 r FT M|s1 r FT L CV M|e FT|i l FT L EL CV]; auto.
    + eapply ticks_msgstep; eauto.
    + rewrite <- EB. eapply ticks_msgstep; eauto.
  - left. destruct (pollstep_pscan P _ _ _ _ _ I Ps) as (s2 & -> & S2).
    destruct (erase_keys_frame (c_now c) (c_coins c) s) as (_ & _ & E1 & _).
    assert (s_bctr s2 = s_bctr s) as C2; [|exact C2].
    rewrite <- E1. eapply (pscan_ind_inv P _ _ (fun t => s_bctr t = s_bctr (erase_keys (c_now c) (c_coins c) s)));
      [|exact S2|reflexivity].
    intros t p x t' r _ X PP J. destruct PP as [t' Ev R|t' Ev R|t' Ev R|t' Ev R _];
      rewrite (rest_bctr _ _ (sr_rest _ _ _ _ _ R)); exact J.
Qed.

Lemma commit_head x t n payload tx : is_type (mt_code t) (commit_msg P x t n payload tx).
Proof.
  unfold commit_msg, seal, seal_cookie, env_upto_mac, env_upto_cookie, is_type.
  destruct (p_handshake x); reflexivity.
Qed.
Lemma commit_not x t n payload tx b : b <> mt_code t -> ~ is_type b (commit_msg P x t n payload tx).
Proof.
  intros N T. pose proof (commit_head x t n payload tx) as H. unfold is_type in *. congruence.
Qed.

(** An answered InitHello uses the current number. *)
Lemma answered_number c rx s s' r m :
  correct P -> inv P s -> valid c s -> received c = Some rx -> exec P c s = (s', r) ->
  replied r m -> is_type x82 m ->
  s_bctr s' = increment (s_bctr s) /\
  exists p x, pe s p = Some x /\ resp_number (p_alg x) s' m (le_dec (s_bctr s)).
Proof.
  intros HP I V Rc E (o & ->) Ty.
  assert (forall now c0 tx t t' r0, wf_coins c0 -> inv P t -> 1100 <= length tx ->
    msgstep P now c0 rx tx t t' r0 -> r0 = Ok {| mr_exchanged := o; mr_resp := Some m |} ->
    s_bctr t' = increment (s_bctr t) /\
    exists p x, pe t p = Some x /\ resp_number (p_alg x) t' m (le_dec (s_bctr t))) as K.
  { intros now c0 tx t t' r0 W It LT M Er.
    destruct M as [e|q x ck a e FT L T|q x ck FT L T CS
    |q x h ic core s1 FT L Hi Hp Hh Hs Hn Hc CS R
    |q x h ic core s1 FT L Hi Hp Hh Hs Hn Hc CS R
    |q x k' FT L EK Hp Hk Hm CS
    |e s1 s2 FT L EK F1 F2 K1 K2
    |s0 a q x bno core s1 e FT L EK HA K0 K1 HI SF R
    |s0 q x bno core s1 s2 FT L EK HA K0 K1 HI SF R CS R2
    |q x h u FT L Hi Hp Hh Hs Hn Hu CS Ht D
    |q x h u s1 pt FT L Hi Hp Hh Hs Hn Hu CS Ht D R
    |q x h mac v FT L Hi Hp Hd Hh Hm D
    |q x h mac v FT L Hi Hp Hd Hh Hm D]; try discriminate Er;
    unfold handled in Er; injection Er as _ Er; subst m.
    - destruct (after_biscuit_frame now c0 t) as (_&_&EB&_). split; [exact EB|].
      exists q, x. split; [apply (ih_try_pe P _ _ _ _ _ _ T)|].
      apply rh_msg_number; auto; [|apply (i_bctr P t It)].
      apply (wf_rx_ih rx L).
    - exfalso. revert Ty. now apply commit_not.
    - exfalso. revert Ty. now apply commit_not.
    - exfalso. revert Ty. now apply commit_not. }
  destruct (handled_msgstep P c rx s s' _ I V Rc E) as (tx & t & Ht & LT & [M|(FT & Es & _ & m' & Em & T')]).
  - destruct V as [W _]. destruct Ht as [->| ->].
    + eapply K; eauto.
    + destruct (cs_choice_same (c_now c) (c_coins c) s) as (EP & _ & _ & _ & EB).
      rewrite <- EB. destruct (K _ _ _ _ _ _ W (g_inv _ _ _ (cs_choice_good P _ _ _ I)) LT M eq_refl)
        as (A & p & x & X & B).
      split; [exact A|]. exists p, x. split; [|exact B]. unfold pe in *. now rewrite <- EP.
  - exfalso. cbn [mr_resp] in Em. injection Em as ->. unfold is_type in *. congruence.
Qed.

Lemma increment_le s : length (s_bctr s) = 12 -> (le_dec (s_bctr s) + 1 < 2 ^ 96)%N ->
  le_dec (increment (s_bctr s)) = (le_dec (s_bctr s) + 1)%N.
Proof. intros L B. rewrite increment_dec, L. apply N.mod_small. exact B. Qed.

(** In a history that is too short to exhaust the counter it only grows. *)
Lemma counter_run s h s' : inv P s -> run P s h s' ->
  (le_dec (s_bctr s) + N.of_nat (length h) < 2 ^ 96)%N ->
  (le_dec (s_bctr s) <= le_dec (s_bctr s') <= le_dec (s_bctr s) + N.of_nat (length h))%N.
Proof.
  intros I R. revert I. induction R as [s|s c r s1 h s2 V E R IH]; intros I B; [cbn; lia|].
  pose proof (exec_inv P _ _ _ _ I V E) as I1. cbn [length] in B |- *.
  rewrite Nat2N.inj_succ in *.
  destruct (ticks_exec c s s1 r I V E) as [Eb|Eb].
  - rewrite Eb in IH. specialize (IH I1). lia.
  - rewrite Eb, (increment_le s) in IH by (try apply (i_bctr P s I); lia). specialize (IH I1). lia.
Qed.
End Numbers.

(** Every RespHello a server sends carries the number its counter had before the call,
    and the counter is incremented.  The first number is 1. *)
Theorem C16_reply_carries_counter : forall P s c rx s' r m,
  correct P -> reachable P s -> valid c s -> received c = Some rx -> exec P c s = (s', r) ->
  replied r m -> is_type x82 m ->
  le_dec (s_bctr s') = ((le_dec (s_bctr s) + 1) mod 2 ^ 96)%N /\
  exists p x, pe s p = Some x /\ resp_number P (p_alg x) s' m (le_dec (s_bctr s)).
Proof.
  intros P s c rx s' r m HP (s0 & h & I & R) V Rc E Rp Ty.
  pose proof (run_inv P _ _ _ (initial_inv P _ I) R) as Is.
  destruct (answered_number P c rx s s' r m HP Is V Rc E Rp Ty) as [A B]. split; [|exact B].
  now rewrite A, increment_dec, (i_bctr P s Is).
Qed.
Print Assumptions C16_reply_carries_counter.

Theorem C16_first_number : forall s, initial s -> le_dec (s_bctr s) = 1%N.
Proof. intros s (sk & pk & b0 & b1 & k0 & k1 & hk & ->). reflexivity. Qed.
Print Assumptions C16_first_number.

(** Hence, in every history of fewer than 2^96 - 1 calls, of two RespHello messages sent
    the later one carries the larger number. *)
Theorem C16_numbers_increase : forall P s0 h1 s1 c1 rx1 t1 r1 m1 h2 s2 c2 rx2 t2 r2 m2,
  correct P -> initial s0 ->
  run P s0 h1 s1 ->
  valid c1 s1 -> received c1 = Some rx1 -> exec P c1 s1 = (t1, r1) ->
  replied r1 m1 -> is_type x82 m1 ->
  run P t1 h2 s2 ->
  valid c2 s2 -> received c2 = Some rx2 -> exec P c2 s2 = (t2, r2) ->
  replied r2 m2 -> is_type x82 m2 ->
  (N.of_nat (length h1 + length h2) + 2 < 2 ^ 96)%N ->
  exists p x q y n1 n2, pe s1 p = Some x /\ pe s2 q = Some y /\
    resp_number P (p_alg x) t1 m1 n1 /\ resp_number P (p_alg y) t2 m2 n2 /\ (1 <= n1 < n2)%N.
Proof.
  intros P s0 h1 s1 c1 rx1 t1 r1 m1 h2 s2 c2 rx2 t2 r2 m2 HP I R1 V1 Rc1 E1 Rp1 T1 R2 V2 Rc2 E2
    Rp2 T2 B.
  pose proof (initial_inv P _ I) as I0. pose proof (run_inv P _ _ _ I0 R1) as I1.
  pose proof (exec_inv P _ _ _ _ I1 V1 E1) as J1. pose proof (run_inv P _ _ _ J1 R2) as I2.
  destruct (answered_number P c1 rx1 s1 t1 r1 m1 HP I1 V1 Rc1 E1 Rp1 T1) as [A1 (p & x & X & B1)].
  destruct (answered_number P c2 rx2 s2 t2 r2 m2 HP I2 V2 Rc2 E2 Rp2 T2) as [A2 (q & y & Y & B2)].
  exists p, x, q, y. do 2 eexists. split; [exact X|]. split; [exact Y|].
  split; [exact B1|]. split; [exact B2|].
  rewrite Nat2N.inj_add in B.
  pose proof (counter_run P _ _ _ I0 R1) as C1. rewrite (C16_first_number _ I) in C1.
  specialize (C1 ltac:(lia)).
  pose proof (counter_run P _ _ _ J1 R2) as C2.
  rewrite A1, (increment_le s1) in C2 by (try apply (i_bctr P s1 I1); lia).
  specialize (C2 ltac:(lia)). lia.
Qed.
Print Assumptions C16_numbers_increase.

Example C16_nonvacuous :
  correct Demo.P /\ received Demo.cB2 = Some Demo.m1 /\ replied (snd Demo.rB2) Demo.m2 /\
  is_type x82 Demo.m2 /\ resp_number Demo.P Shake Demo.B2 Demo.m2 1 /\
  (exists r, replied (snd (exec Demo.P Demo.cB2 Demo.B2)) r /\ is_type x82 r /\
     resp_number Demo.P Shake (fst (exec Demo.P Demo.cB2 Demo.B2)) r 2).
Proof.
  split; [exact Toy.correct|]. split; [reflexivity|]. split; [eexists; reflexivity|].
  split; [reflexivity|]. split.
  - eexists. split; vm_compute; reflexivity.
  - eexists. split; [eexists; vm_compute; reflexivity|]. split; [vm_compute; reflexivity|].
    eexists. split; vm_compute; reflexivity.
Qed.

(** The numbers on the wire need not be consecutive: an InitHello that is otherwise valid
    but has a broken seal is rejected and still uses up a number. *)
Theorem C16_consecutive_refuted : exists s c s' e,
  reachable Demo.P s /\ valid c s /\ exec Demo.P c s = (s', Err e) /\
  le_dec (s_bctr s) = 1%N /\ le_dec (s_bctr s') = 2%N.
Proof.
  set (rx := firstn 1028 Demo.m1 ++ repeat x99 32).
  exists Demo.B1, (Demo.mk (secs 2) x33 (OMsg rx Demo.tx)).
  eexists. eexists. split; [|split; [|split; [|split]]].
  - apply (Demo.reach Demo.B0 [(Demo.cB1, snd Demo.rB1)]); [exact Demo.initB|].
    apply Demo.step; [split; [apply Demo.wf_coin|exact Logic.I]|vm_compute; reflexivity|constructor].
  - split; [apply Demo.wf_coin|]. apply Demo.leb_le_c. vm_compute. reflexivity.
  - vm_compute. reflexivity.
  - reflexivity.
  - vm_compute. reflexivity.
Qed.
Print Assumptions C16_consecutive_refuted.
