(** C110: what an attacker without keys can do to the biscuit counter of a responder.  The last biscuit number a responder has
    used for a peer is one of a confirmation that this peer has made, so the confirmation of the peer's latest handshake is not
    too old. *)
From Verif Require Import Base ConstTime Prims HashDomains Wire Server Protocol Wp Inv Rules Calls PollRules System Trans.
From Verif Require Import Spec PReplay PHandshake Sym SymSec PSym PSymLink SymRun PSymRun PSymKeys PSymOnce.

(** * Which calls change the last used number *)

Lemma ic_failed_pe_some P s s' m v a i x : ic_failed P s (ev_ic P v m) a s' -> pe s i = Some x -> exists x', pe s' i = Some x'.
Proof.
  intros [[-> _]|(p & y & bno & core & q & Ac & _ & _ & R)] X; [eauto|]. rewrite (sr_pe _ _ _ _ _ R).
  destruct (Nat.eqb_spec p i) as [->|N]; eauto.
Qed.

Section Used.
Context (P : prims) (OK : correct P) (v : name -> bytes) (cfg : nat -> list entry).
Notation ev := (ev P v).

(** The InitConf [m], of which the attacker knows every field, is acceptable at [B] for its peer [i], and has the number [n]. *)
Definition acceptable (B i : nat) (tr : list Sym.event) (m : s_ic) (n : bytes) : Prop :=
  exists k g q ck, s_done (cfg B) B k g m = Some (q, ck) /\ nth_error (cfg B) i = Some q /\
    conf_number P v m = Some n /\ forall t, In t (ic_fields m) -> knows cfg tr t.

Lemma accept_sym B s tr m a p x bno core : cfg_ok cfg -> inv P s -> agent_ok P v cfg B s tr -> ic_ideal P v cfg B s m ->
  (forall t, In t (ic_fields m) -> knows cfg tr t) ->
  ic_accept P s (ev_ic P v m) a = inl (p, x, bno, core) -> acceptable B p tr m bno.
Proof.
  intros C I G D Kn Ac. destruct (ao_bk _ _ _ _ _ _ G (nonce_slot (ev (w_biscuit m)))) as [k Hk].
  destruct (conv_done P OK v cfg s tr B k a m p x bno core C I G D Hk Ac) as (q & ck & Nq & S & _ & _ & _ & Cn).
  exists k, a, q, ck. auto.
Qed.

Definition used_or (B i : nat) (tr : list Sym.event) (M : smsg) (x x' : peer) : Prop :=
  p_biscuit_used x' = p_biscuit_used x \/ exists m, M = SIC m /\ acceptable B i tr m (p_biscuit_used x').

Lemma used_failed B s s' tr m a i x : cfg_ok cfg -> inv P s -> agent_ok P v cfg B s tr -> ic_ideal P v cfg B s m ->
  (forall t, In t (ic_fields m) -> knows cfg tr t) -> length (ic_biscuit (ev_ic P v m)) = 116 ->
  ic_failed P s (ev_ic P v m) a s' -> pe s i = Some x ->
  exists x', pe s' i = Some x' /\ used_or B i tr (SIC m) x x'.
Proof.
  intros C I G D Kn Lb [[-> _]|(p & y & bno & core & q & Ac & _ & _ & R)] X; [exists x; split; [exact X|now left]|].
  rewrite (sr_pe _ _ _ _ _ R). destruct (Nat.eqb_spec p i) as [->|N]; [|exists x; split; [exact X|now left]].
  eexists. split; [reflexivity|]. right. exists m. split; [reflexivity|].
  cbn [p_biscuit_used set_session set_biscuit_used]. eapply accept_sym; eauto.
Qed.

Lemma used_then B i tr M x y z : used_or B i tr M x y -> used_or B i tr M y z -> used_or B i tr M x z.
Proof.
  intros U [E|Q]; [|now right]. destruct U as [E'|(m & Em & Q)]; [left; congruence|]. right. exists m. rewrite E. auto.
Qed.

Lemma used_msg B tr now c rx M0 tx s s' r i x : cfg_ok cfg -> inv P s -> agent_ok P v cfg B s tr -> heard P v cfg B s tr rx M0 ->
  msgstep P now c rx tx s s' r -> pe s i = Some x -> exists x', pe s' i = Some x' /\ used_or B i tr M0 x x'.
Proof.
  intros C I G Hd M X. unfold heard in Hd.
  assert (Same : forall s1 p y y' f, pe s p = Some y -> st_rel s s1 p y' f -> p_biscuit_used y' = p_biscuit_used y ->
    exists x', pe s1 i = Some x' /\ used_or B i tr M0 x x').
  { intros s1 p y y' f Y R E. rewrite (sr_pe _ _ _ _ _ R). destruct (Nat.eqb_spec p i) as [->|N].
    - exists y'. split; [reflexivity|]. left. congruence.
    - exists x. split; [exact X|]. now left. }
  assert (Frame : forall s1, s_peers s1 = s_peers s -> exists x', pe s1 i = Some x' /\ used_or B i tr M0 x x').
  { intros s1 E. exists x. split; [unfold pe in *; now rewrite E|now left]. }
  destruct M as [e|p y ck a e FT L Ih|p y ck FT L Ih Se|p y h ic core s1 FT L Hi Y Hh Hs Hn Hc Se R
    |p y h ic core s1 FT L Hi Y Hh Hs Hn Hc Se R|p y k FT L Hi Y Hk Hm Se|e s1 s2 FT L Hi F1 F2 K1 K2
    |s0 a p y bno core s1 e FT L Hi HA K0 K1 Ac SF R|s0 p y bno core s1 s2 FT L Hi HA K0 K1 Ac SF R Se R2
    |p y h u FT L Hi Y Hh Hs Hn Hu Se Hc D|p y h u s1 pt FT L Hi Y Hh Hs Hn Hu Se Hc D R
    |p y h mac w FT L Hi Y Hd' Hh Hm D|p y h mac w FT L Hi Y Hd' Hh Hm D];
    try (rewrite FT in Hd).
  - now apply Frame.
  - apply Frame. apply (after_biscuit_frame now c s).
  - apply Frame. apply (after_biscuit_frame now c s).
  - eapply Same; [exact Y|exact R|reflexivity].
  - eapply Same; [exact Y|exact R|reflexivity].
  - now apply Frame.
  - destruct M0 as [| |m| |]; try contradiction. destruct Hd as (Em & Kn & Id).
    assert (length (ic_biscuit (parse_ic (env_payload IC_LEN rx))) = 116) as Lb by (apply (wf_rx_ic rx L)).
    rewrite Em in *.
    destruct (used_failed B s s1 tr m Shake i x C I G Id Kn Lb F1 X) as (x1 & X1 & U1).
    assert (G1 : agent_ok P v cfg B s1 tr) by (eapply failed_ok; eauto).
    assert (Id1 : ic_ideal P v cfg B s1 m) by (intros k0 g0 pt0; rewrite (failed_bk _ _ _ _ _ _ F1); apply Id).
    destruct (used_failed B s1 s2 tr m Blake i x1 C (g_inv _ _ _ (proj1 K1)) G1 Id1 Kn Lb F2 X1) as (x2 & X2 & U2).
    exists x2. split; [exact X2|]. eapply used_then; eauto.
  - destruct M0 as [| |m| |]; try contradiction. destruct Hd as (Em & Kn & Id).
    assert (length (ic_biscuit (parse_ic (env_payload IC_LEN rx))) = 116) as Lb by (apply (wf_rx_ic rx L)).
    rewrite Em in *. assert (I0 : inv P s0) by (apply K0).
    assert (exists x0, pe s0 i = Some x0 /\ used_or B i tr (SIC m) x x0 /\ agent_ok P v cfg B s0 tr /\ ic_ideal P v cfg B s0 m)
      as (x0 & X0 & U0 & G0 & Id0).
    { destruct HA as [[_ ->]|[_ HA]].
      - exists x. split; [exact X|]. split; [now left|]. auto.
      - destruct (used_failed B s s0 tr m Shake i x C I G Id Kn Lb HA X) as (x1 & X1 & U1). exists x1. split; [exact X1|].
        split; [exact U1|]. split; [eapply failed_ok; eauto|]. intros k0 g0 pt0. rewrite (failed_bk _ _ _ _ _ _ HA). apply Id. }
    rewrite (sr_pe _ _ _ _ _ R). destruct (Nat.eqb_spec p i) as [->|N]; [|exists x0; auto].
    eexists. split; [reflexivity|]. right. exists m. split; [reflexivity|].
    cbn [ic_peer p_biscuit_used set_handshake set_session set_biscuit_used]. eapply accept_sym; eauto.
  - destruct M0 as [| |m| |]; try contradiction. destruct Hd as (Em & Kn & Id).
    assert (length (ic_biscuit (parse_ic (env_payload IC_LEN rx))) = 116) as Lb by (apply (wf_rx_ic rx L)).
    rewrite Em in *. assert (I0 : inv P s0) by (apply K0).
    assert (exists x0, pe s0 i = Some x0 /\ used_or B i tr (SIC m) x x0 /\ agent_ok P v cfg B s0 tr /\ ic_ideal P v cfg B s0 m)
      as (x0 & X0 & U0 & G0 & Id0).
    { destruct HA as [[_ ->]|[_ HA]].
      - exists x. split; [exact X|]. split; [now left|]. auto.
      - destruct (used_failed B s s0 tr m Shake i x C I G Id Kn Lb HA X) as (x1 & X1 & U1). exists x1. split; [exact X1|].
        split; [exact U1|]. split; [eapply failed_ok; eauto|]. intros k0 g0 pt0. rewrite (failed_bk _ _ _ _ _ _ HA). apply Id. }
    rewrite (sr_pe _ _ _ _ _ R2), (sr_pe _ _ _ _ _ R). destruct (Nat.eqb_spec p i) as [->|N]; [|exists x0; auto].
    eexists. split; [reflexivity|]. right. exists m. split; [reflexivity|].
    cbn [ic_peer p_biscuit_used set_known set_handshake set_session set_biscuit_used]. eapply accept_sym; eauto.
  - eapply Same; [exact Y|exact (with_peer_rel _ _ _ _ Y)|reflexivity].
  - eapply Same; [exact Y|exact R|reflexivity].
  - eapply Same; [exact Y|exact (with_peer_rel _ _ _ _ Y)|reflexivity].
  - eapply Same; [exact Y|exact (with_peer_rel _ _ _ _ Y)|reflexivity].
Qed.

Lemma used_step B run tr c M0 s s' r i x : cfg_ok cfg -> inv P s -> agent_ok P v cfg B s tr -> allowed P v cfg B run tr c M0 s ->
  exec P c s = (s', r) -> pe s i = Some x -> exists x', pe s' i = Some x' /\ used_or B i tr M0 x x'.
Proof.
  intros C I G (Va & N & F & Al) E X.
  assert (Frame : forall s1, s_peers s1 = s_peers s -> exists x', pe s1 i = Some x' /\ used_or B i tr M0 x x').
  { intros s1 Ep. exists x. split; [unfold pe in *; now rewrite Ep|now left]. }
  pose proof (exec_step P c s s' r I Va E) as St.
  destruct St as [psk pk a ds Eo Hx|psk pk a ds Eo Hx|p tx q Eo Nq Hx|p tx y s1 Eo Y Hx R|rx tx s1 r0 Eo M
    |rx tx host s1 r0 Eo M|s1 r0 Eo M|p tx r0 Eo Np|p r0 Eo Np]; try (rewrite Eo in Al); try now apply Frame.
  - exists x. split; [|now left]. unfold pe in *. cbn [s_peers set_peers]. rewrite nth_error_app1; [exact X|].
    apply nth_error_Some. congruence.
  - rewrite (sr_pe _ _ _ _ _ R). destruct (Nat.eqb_spec p i) as [->|Np]; [|exists x; split; [exact X|now left]].
    eexists. split; [reflexivity|]. left. unfold ins_hs. cbn [p_biscuit_used set_handshake set_init_req]. congruence.
  - eapply used_msg; eauto.
  - destruct M as [e|s' r FT M|s' r FT L CV M|e FT|j l FT L El CV]; try now apply Frame.
    + eapply used_msg; eauto.
    + destruct (cs_choice_frame (c_now c) (c_coins c) s) as (_ & _ & _ & _ & _ & F4 & _).
      eapply (used_msg B tr (c_now c) (c_coins c) rx M0 tx (fst (cs_choice (c_now c) (c_coins c) s))); eauto.
      * apply (cs_choice_good P (c_now c) (c_coins c) s I).
      * now apply agent_choice.
      * unfold heard in *. rewrite FT in *. exact Al.
      * unfold pe in *. now rewrite F4.
    + apply Frame. apply (cs_choice_frame (c_now c) (c_coins c) s).
    + apply Frame. apply (cs_choice_frame (c_now c) (c_coins c) s).
  - destruct (pollstep_pscan P _ _ _ _ _ I M) as (s2 & -> & Ps).
    assert (exists x', pe s2 i = Some x' /\ p_biscuit_used x' = p_biscuit_used x) as (x' & X' & E').
    { eapply (pscan_ind_inv P (c_now c) (c_coins c) (fun t => exists x', pe t i = Some x' /\ p_biscuit_used x' = p_biscuit_used x));
        [|exact Ps|].
      - intros t p y t' r' It Y K (x1 & X1 & E1).
        assert (forall y' f, st_rel t t' p y' f -> p_biscuit_used y' = p_biscuit_used y ->
          exists x', pe t' i = Some x' /\ p_biscuit_used x' = p_biscuit_used x) as K1.
        { intros y' f R Eb. rewrite (sr_pe _ _ _ _ _ R). destruct (Nat.eqb_spec p i) as [->|Np]; [|now exists x1].
          exists y'. split; [reflexivity|]. congruence. }
        destruct K as [t' Ev R|t' Ev R|t' Ev R|t' Ev R _]; (eapply K1; [exact R|]); clear;
          repeat match goal with
                 | |- context [drop_known ?n ?z] => unfold drop_known; destruct (known_dead n z)
                 | |- context [drop_hs ?n ?z] => unfold drop_hs; destruct (hs_dead n z)
                 | |- context [retried] => unfold retried; destruct (p_handshake _)
                 end; reflexivity.
      - exists x. split; [|reflexivity]. destruct (erase_keys_frame (c_now c) (c_coins c) s) as (_ & _ & _ & F4 & _).
        unfold pe in *. now rewrite F4. }
    exists x'. split; [exact X'|]. now left.
Qed.
End Used.

(** * Which messages end a handshake *)

Section Pending.
Context (P : prims) (OK : correct P) (v : name -> bytes) (cfg : nat -> list entry).
Notation ev := (ev P v).
Notation acceptable := (acceptable P v cfg).

(** The handshake [h] is still pending, with the same secrets. *)
Definition same_hs (h : ihs) (x' : peer) : Prop :=
  exists h', p_handshake x' = Some h' /\ hs_next h' = hs_next h /\ hs_cor h' = hs_cor h /\ hs_eski h' = hs_eski h /\
    hs_epki h' = hs_epki h.
(** [m] is a RespHello that the latest handshake of [A] with its peer [i] takes. *)
Definition answers (A i : nat) (tr : list Sym.event) (m : s_rh) : Prop :=
  exists q run ic ck, nth_error (cfg A) i = Some q /\ latest A q run tr /\ s_conf run A q m = Some (ic, ck) /\
    forall t, In t (rh_fields m) -> knows cfg tr t.
Definition hs_or (A i : nat) (tr : list Sym.event) (M : smsg) (h : ihs) (x' : peer) : Prop :=
  same_hs h x' \/ (exists m, M = SRH m /\ answers A i tr m) \/ exists m n, M = SIC m /\ acceptable A i tr m n.

Lemma same_hs_refl h x : p_handshake x = Some h -> same_hs h x.
Proof. intros E. exists h. auto. Qed.

Lemma failed_hs B s s' tr m a i x : cfg_ok cfg -> inv P s -> agent_ok P v cfg B s tr -> ic_ideal P v cfg B s m ->
  (forall t, In t (ic_fields m) -> knows cfg tr t) -> length (ic_biscuit (ev_ic P v m)) = 116 ->
  ic_failed P s (ev_ic P v m) a s' -> pe s i = Some x ->
  (exists x', pe s' i = Some x' /\ p_handshake x' = p_handshake x) \/ exists n, acceptable B i tr m n.
Proof.
  intros C I G D Kn Lb [[-> _]|(p & y & bno & core & q & Ac & _ & _ & R)] X; [left; now exists x|].
  rewrite (sr_pe _ _ _ _ _ R). destruct (Nat.eqb_spec p i) as [->|N]; [|left; now exists x].
  right. exists bno. eapply accept_sym; eauto.
Qed.

Lemma hs_msg A tr now c rx M0 tx s s' r i x h : cfg_ok cfg -> inv P s -> agent_ok P v cfg A s tr -> heard P v cfg A s tr rx M0 ->
  msgstep P now c rx tx s s' r -> pe s i = Some x -> p_handshake x = Some h -> hs_next h = ExpRespHello ->
  exists x', pe s' i = Some x' /\ hs_or A i tr M0 h x'.
Proof.
  intros C I G Hd M X Eh En. unfold heard in Hd.
  assert (Same : forall s1 p y y' f, pe s p = Some y -> st_rel s s1 p y' f -> (p = i -> hs_or A i tr M0 h y') ->
    exists x', pe s1 i = Some x' /\ hs_or A i tr M0 h x').
  { intros s1 p y y' f Y R E. rewrite (sr_pe _ _ _ _ _ R). destruct (Nat.eqb_spec p i) as [->|N].
    - exists y'. auto.
    - exists x. split; [exact X|]. left. now apply same_hs_refl. }
  assert (Frame : forall s1, s_peers s1 = s_peers s -> exists x', pe s1 i = Some x' /\ hs_or A i tr M0 h x').
  { intros s1 E. exists x. split; [unfold pe in *; now rewrite E|left; now apply same_hs_refl]. }
  assert (Resp : forall p y h0 ic core, pe s p = Some y -> p_handshake y = Some h0 ->
    first_type rx = Some MRespHello -> hs_sid h0 = rh_sidi (parse_rh (env_payload RH_LEN rx)) -> hs_next h0 = ExpRespHello ->
    handle_rh_compute P s h0 (parse_rh (env_payload RH_LEN rx)) = Some (ic, core) -> forall y', p = i -> hs_or A i tr M0 h y').
  { intros p y h0 ic core Y Hh FT Hs Hn Hc y' ->. right. left. rewrite FT in Hd.
    destruct M0 as [|m| | |]; try contradiction. destruct Hd as (Em & Kn & Id). exists m. split; [reflexivity|].
    destruct (ao_peers _ _ _ _ _ _ G i y Y) as (q & Nq & Po).
    destruct (proj1 (po_hs _ _ _ _ _ _ _ Po h0 Hh) Hn) as (run & I1 & La & _ & H1 & H2 & H3 & H4 & H5).
    rewrite Em in Hs, Hc.
    destruct (conv_conf P OK v s tr run A q m h0 ic core (ao_agent _ _ _ _ _ _ G) I1 Id H1 H2 H3 H4 H5 Hs Hc) as (ic' & ck & S & _).
    exists q, run, ic', ck. auto. }
  assert (Conf : forall s0 a p y bno core, first_type rx = Some MInitConf -> length rx = 176 ->
    (a = Shake /\ s0 = s \/ a = Blake /\ ic_failed P s (parse_ic (env_payload IC_LEN rx)) Shake s0) -> inv P s0 ->
    ic_accept P s0 (parse_ic (env_payload IC_LEN rx)) a = inl (p, y, bno, core) ->
    forall s1 y1 f, st_rel s0 s1 p y1 f -> exists x', pe s1 i = Some x' /\ hs_or A i tr M0 h x').
  { intros s0 a p y bno core FT L HA I0 Ac s1 y1 f R. rewrite FT in Hd.
    destruct M0 as [| |m| |]; try contradiction. destruct Hd as (Em & Kn & Id).
    assert (length (ic_biscuit (parse_ic (env_payload IC_LEN rx))) = 116) as Lb by (apply (wf_rx_ic rx L)).
    rewrite Em in *.
    assert (agent_ok P v cfg A s0 tr /\ ic_ideal P v cfg A s0 m) as [G0 Id0].
    { destruct HA as [[_ ->]|[_ HA]]; [auto|]. split; [eapply failed_ok; eauto|].
      intros k0 g0 pt0. rewrite (failed_bk _ _ _ _ _ _ HA). apply Id. }
    assert (exists x0, pe s0 i = Some x0 /\ hs_or A i tr (SIC m) h x0) as (x0 & X0 & U0).
    { destruct HA as [[_ ->]|[_ HA]]; [exists x; split; [exact X|left; now apply same_hs_refl]|].
      destruct (failed_hs A s s0 tr m Shake i x C I G Id Kn Lb HA X) as [(x1 & X1 & U1)|(n & U1)].
      - exists x1. split; [exact X1|]. left. apply same_hs_refl. congruence.
      - destruct (ic_failed_pe_some P s s0 m v Shake i x HA X) as [x1 X1]. exists x1. split; [exact X1|]. right. right. eauto. }
    rewrite (sr_pe _ _ _ _ _ R). destruct (Nat.eqb_spec p i) as [->|N]; [|exists x0; auto].
    eexists. split; [reflexivity|]. right. right. exists m, bno. split; [reflexivity|]. eapply accept_sym; eauto. }
  assert (Idx : forall p y h0, p = i -> pe s p = Some y -> p_handshake y = Some h0 -> h0 = h) by (intros p y h0 -> Y Z; congruence).
  destruct M as [e|p y ck a e FT L Ih|p y ck FT L Ih Se|p y h0 ic core s1 FT L Hi Y Hh Hs Hn Hc Se R
    |p y h0 ic core s1 FT L Hi Y Hh Hs Hn Hc Se R|p y k FT L Hi Y Hk Hm Se|e s1 s2 FT L Hi F1 F2 K1 K2
    |s0 a p y bno core s1 e FT L Hi HA K0 K1 Ac SF R|s0 p y bno core s1 s2 FT L Hi HA K0 K1 Ac SF R Se R2
    |p y h0 u FT L Hi Y Hh Hs Hn Hu Se Hc D|p y h0 u s1 pt FT L Hi Y Hh Hs Hn Hu Se Hc D R
    |p y h0 mac w FT L Hi Y Hd' Hh Hm D|p y h0 mac w FT L Hi Y Hd' Hh Hm D].
  - now apply Frame.
  - apply Frame. apply (after_biscuit_frame now c s).
  - apply Frame. apply (after_biscuit_frame now c s).
  - eapply Same; [exact Y|exact R|]. eapply Resp; eauto.
  - eapply Same; [exact Y|exact R|]. eapply Resp; eauto.
  - now apply Frame.
  - rewrite FT in Hd. destruct M0 as [| |m| |]; try contradiction. destruct Hd as (Em & Kn & Id).
    assert (length (ic_biscuit (parse_ic (env_payload IC_LEN rx))) = 116) as Lb by (apply (wf_rx_ic rx L)).
    rewrite Em in *.
    assert (G1 : agent_ok P v cfg A s1 tr) by (eapply failed_ok; eauto).
    assert (Id1 : ic_ideal P v cfg A s1 m) by (intros k0 g0 pt0; rewrite (failed_bk _ _ _ _ _ _ F1); apply Id).
    destruct (ic_failed_pe_some P s s1 m v Shake i x F1 X) as [x1 X1]. destruct (ic_failed_pe_some P s1 s2 m v Blake i x1 F2 X1) as [x2 X2].
    exists x2. split; [exact X2|].
    destruct (failed_hs A s s1 tr m Shake i x C I G Id Kn Lb F1 X) as [(y1 & Y1 & U1)|(n & U1)]; [|right; right; eauto].
    destruct (failed_hs A s1 s2 tr m Blake i x1 C (g_inv _ _ _ (proj1 K1)) G1 Id1 Kn Lb F2 X1) as [(y2 & Y2 & U2)|(n & U2)]; [|right; right; eauto].
    left. apply same_hs_refl. congruence.
  - assert (I0 : inv P s0) by (apply K0). eapply Conf; eauto.
  - assert (I0 : inv P s0) by (apply K0). destruct (Conf s0 (p_alg y) p y bno core FT L HA I0 Ac s1 _ _ R) as (x1 & X1 & U1).
    rewrite (sr_pe _ _ _ _ _ R2). destruct (Nat.eqb_spec p i) as [->|N]; [|exists x1; auto].
    eexists. split; [reflexivity|]. destruct U1 as [U1|U1]; [|right; exact U1].
    rewrite (sr_pe _ _ _ _ _ R), Nat.eqb_refl in X1. injection X1 as <-. exfalso. destruct U1 as (h' & E' & _). discriminate E'.
  - eapply Same; [exact Y|exact (with_peer_rel _ _ _ _ Y)|]. intros Ei. pose proof (Idx _ _ _ Ei Y Hh). congruence.
  - eapply Same; [exact Y|exact R|]. intros Ei. pose proof (Idx _ _ _ Ei Y Hh). congruence.
  - eapply Same; [exact Y|exact (with_peer_rel _ _ _ _ Y)|]. intros Ei. pose proof (Idx _ _ _ Ei Y Hh). subst h0.
    left. eexists. split; [reflexivity|]. auto.
  - eapply Same; [exact Y|exact (with_peer_rel _ _ _ _ Y)|]. intros Ei. pose proof (Idx _ _ _ Ei Y Hh). subst h0.
    left. eexists. split; [reflexivity|]. auto.
Qed.
End Pending.

(** * Which InitHello came first *)

Lemma entry_eq (p q : entry) : e_pk p = e_pk q -> e_psk p = e_psk q -> Sym.e_alg p = Sym.e_alg q -> p = q.
Proof. destruct p, q. cbn. congruence. Qed.
(** An InitHello the attacker can deliver was sent, if the keys that protect it are safe. *)
Lemma hello_made cfg tr run A p : Sym.valid cfg tr -> (forall t, In t (ih_fields (fst (s_init run A p))) -> knows cfg tr t) ->
  pk_safe tr p (NCoin run false) \/ psk_safe tr p -> In (EInit run A p) tr.
Proof.
  intros V K C. destruct (s_init run A p) as [m ck] eqn:E. cbn [fst] in K.
  destruct (init_spec _ _ _ _ _ E) as (E1 & E2 & E3 & E4 & E5 & _). cbn zeta in *.
  set (l := hello_items (e_pk p) m (Shk false (e_pk p) (Nm (NCoin run false))) ++ [y_pidct m; pkey A; e_psk p]) in *.
  assert (KA : knows cfg tr (y_auth m)) by (apply K; do 4 right; left; reflexivity). rewrite E5 in KA.
  apply known_tag_made in KA; [|exact V|].
  2:{ apply key_not_pub; [exact V| | |now left].
      - intros F. rewrite Forall_forall in F. destruct C as [(B & E6 & R1 & R2)|C].
        + apply (not_pub_shk cfg tr false (NStatic B) (NCoin run false)); auto. apply F.
          change (Pk false (Nm (NStatic B))) with (pkey B). rewrite <- E6. unfold l, hello_items. cbn [List.app].
          do 3 right. left. reflexivity.
        + apply (not_pub_psk cfg tr p C). apply F. unfold l, hello_items. cbn [List.app]. do 7 right. left. reflexivity.
      - intros (pre & post & run' & B & k & bno & m' & q & rh & El & _ & _ & _ & S).
        destruct (resp_spec _ _ _ _ _ _ _ _ _ _ S) as (pt & _ & _ & _ & _ & _ & _ & _ & _ & X & _).
        destruct (chain_inj _ _ _ _ _ _ X) as (_ & _ & ->). apply (f_equal (@length term)) in El.
        rewrite app_length in El. cbn in El. lia. }
  destruct KA as (e & I & T). destruct e as [run' A' p'|run' B k bno g' m'|run' A' p' m'|B k g' m' ctr|run' A' p' m' ctr d|n|g' ck' l'];
    cbn [sealed] in T.
  - destruct (s_init run' A' p') as [m' ck'] eqn:E'. cbn [fst] in T.
    destruct (init_spec _ _ _ _ _ E') as (F1 & _ & _ & F4 & F5 & _). cbn zeta in *. destruct T as [T|[T|[]]].
    + rewrite F4 in T. apply tag_inj in T. destruct T as (_ & _ & T & _). apply (f_equal (@length term)) in T. cbn in T. lia.
    + rewrite F5 in T. apply tag_inj in T. destruct T as (T1 & T2 & T3 & _). unfold l, hello_items in T3. cbn [List.app] in T3.
      assert (y_sidi m' = y_sidi m) as X1 by congruence. assert (pkey A' = pkey A) as X2 by congruence.
      assert (e_psk p' = e_psk p) as X3 by congruence. rewrite E1, F1 in X1.
      assert (run' = run) by congruence. assert (A' = A) by (unfold pkey, skey in X2; congruence). subst run' A'.
      assert (p' = p) by (apply entry_eq; auto). now subst p'.
  - exfalso. destruct (s_resp (cfg B) run' B k bno g' m') as [[[q rh] ck']|] eqn:E'; [|destruct T].
    destruct (resp_spec _ _ _ _ _ _ _ _ _ _ E') as (pt' & _ & _ & _ & _ & _ & _ & _ & _ & G5 & G6 & G7). cbn zeta in *.
    destruct T as [T|[T|[]]].
    + rewrite G7, G5, <- chain_snoc in T. apply tag_inj in T. destruct T as (_ & _ & T & _). apply (f_equal (@length term)) in T.
      cbn in T. lia.
    + rewrite G6 in T. unfold s_biscuit, s_tag in T. congruence.
  - exfalso. destruct (s_conf run' A' p' m') as [[ic ck']|] eqn:E'; [|destruct T].
    destruct (conf_spec _ _ _ _ _ _ E') as (pt' & _ & _ & _ & _ & _ & G4 & _). destruct T as [T|[]]. rewrite G4 in T.
    apply tag_inj in T. destruct T as (_ & _ & T & _). apply (f_equal (@length term)) in T. rewrite app_length in T. cbn in T. lia.
  - exfalso. destruct (s_done (cfg B) B k g' m') as [[q ck']|] eqn:E'; [|destruct T].
    destruct T as [T|[]]. unfold s_empty, s_tag, s_key in T.
    assert (X : s_hs_enc (e_alg p) = s_res_enc (e_alg q)) by congruence. exact (hs_res _ _ X).
  - destruct T.
  - destruct T.
  - destruct T.
Qed.

Lemma knows_mono cfg tr tr' t : incl tr tr' -> knows cfg tr t -> knows cfg tr' t.
Proof.
  intros L K. induction K; [eapply k_sent; eauto|apply k_lit|apply k_adv|apply k_public|apply k_pair; auto|eapply k_fst; eauto
    |eapply k_snd; eauto|apply k_hash; auto|apply k_pk; auto|apply k_ct; auto|apply k_shk; auto|apply k_dec; auto|apply k_enc; auto
    |eapply k_open; eauto|eapply k_nonce; eauto].
Qed.

(** A peer that a call adds has not used a biscuit yet. *)
Lemma new_peer_unused P c s s' r i x : inv P s -> System.valid c s -> exec P c s = (s', r) -> pe s i = None -> pe s' i = Some x ->
  p_biscuit_used x = zeros 12.
Proof.
  intros I Va E N X. pose proof (exec_grows P c s I Va) as W. unfold wp in W. rewrite E in W. destruct W as (_ & _ & W).
  assert (npeers s' = npeers s -> False) as No.
  { intros En. apply nth_error_None in N. apply pe_lt in X. unfold npeers in *. lia. }
  pose proof (exec_step P c s s' r I Va E) as St.
  destruct (c_op c) as [psk pk a ds|p tx|rx tx|rx tx host| |p tx|p] eqn:Eo; try (exfalso; exact (No W)).
  inversion St as [? ? ? ? Eo' Hx|? ? ? ? Eo' Hx|? ? ? Eo'|? ? ? ? Eo'|? ? ? ? Eo'|? ? ? ? ? Eo'|? ? Eo'|? ? ? Eo'|? ? Eo'];
    subst; rewrite Eo in Eo'; try discriminate; try congruence.
  unfold pe in *. cbn [s_peers set_peers] in X. apply nth_error_None in N. rewrite nth_error_app2 in X by lia.
  destruct (i - length (s_peers _)) as [|[|d]]; cbn [nth_error] in X; try discriminate X. injection X as <-. reflexivity.
Qed.

(** * Numbers of biscuits in the order of the answers *)

Section Order.
Context (P : prims) (OK : correct P) (v : name -> bytes) (cfg : nat -> list entry).
Notation history := (history P v cfg).
Notation acceptable := (acceptable P v cfg).

(** A history with its calls, last one first: who was called, and the message that was delivered. *)
Inductive calls : list (nat * smsg) -> (nat -> srv) -> list Sym.event -> Prop :=
| c_start W : (forall A, starts P v A (W A)) -> calls [] W []
| c_call n W tr A run c M s' r tr' : calls n W tr ->
    allowed P v cfg A run tr c M (W A) -> exec P c (W A) = (s', r) ->
    extends P v cfg A (W A) s' run (initiated c) M tr tr' -> explained P v cfg (put A s' W) tr' ->
    (forall b, output r = Some b -> spoken P v cfg tr' b) ->
    calls ((A, M) :: n) (put A s' W) tr'
| c_reveal n W tr x : calls n W tr -> calls n W (EReveal x :: tr)
| c_osk n W tr g ck ds : calls n W tr -> completed cfg tr g ck -> calls n W (EOsk g ck (s_ds g ds) :: tr).

Lemma calls_history n W tr : calls n W tr -> history W tr.
Proof. intros C. induction C; econstructor; eauto. Qed.
Lemma history_calls W tr : history W tr -> exists n, calls n W tr.
Proof.
  intros Hy. induction Hy as [W St|W tr A run c M s' r tr' Hy [n IH] Al E Ex Ep Sp|W tr n Hy [k IH]|W tr g ck ds Hy [n IH] C];
    eexists; econstructor; eauto.
Qed.

(** Every answer of [B] in the run has a smaller number than the next one will have. *)
Lemma resp_numbers n W tr B : calls n W tr -> (N.of_nat (length n) + 2 < 2 ^ 96)%N ->
  (0 < le_dec (s_bctr (W B)) <= N.of_nat (length n) + 1)%N /\
  forall run k bno g m, In (EResp run B k bno g m) tr -> (0 < le_dec bno < le_dec (s_bctr (W B)))%N.
Proof.
  intros C. induction C as [W St|n W tr A run c M s' r tr' Hy IH Al E Ex Ep Sp|n W tr x Hy IH|n W tr g ck ds Hy IH Cp]; intros Ln.
  - split; [|intros ? ? ? ? ? []]. destruct (St B) as (i & j & k0 & k1 & hk & ->).
    change (0 < 1 <= 0 + 1)%N. lia.
  - cbn [length] in *. destruct IH as [I1 I2]; [lia|]. unfold put. destruct (Nat.eqb_spec A B) as [->|N].
    + destruct (C95_histories_explained P v cfg W tr (calls_history _ _ _ Hy)) as [_ K]. destruct (K B) as [Iv _].
      destruct Al as [Va _]. assert (L12 := i_bctr P _ Iv).
      assert (Inc : le_dec (increment (s_bctr (W B))) = (le_dec (s_bctr (W B)) + 1)%N) by (apply increment_le; [exact L12|lia]).
      assert (le_dec (s_bctr (W B)) <= le_dec (s_bctr s') <= le_dec (s_bctr (W B)) + 1)%N as Tk.
      { destruct (ticks_exec P c (W B) s' r Iv Va E) as [Tk|Tk]; rewrite Tk; [lia|]. rewrite Inc. lia. }
      split; [lia|]. intros run0 k bno g m I.
      destruct Ex as [->|(e & Ce & ->)]; [specialize (I2 _ _ _ _ _ I); lia|].
      destruct I as [->|I]; [|specialize (I2 _ _ _ _ _ I); lia]. cbn [causes] in Ce.
      destruct Ce as (_ & _ & _ & _ & -> & Eb). rewrite Eb, Inc. lia.
    + split; [lia|]. intros run0 k bno g m I. destruct Ex as [->|(e & Ce & ->)]; [exact (I2 _ _ _ _ _ I)|].
      destruct I as [->|I]; [|exact (I2 _ _ _ _ _ I)]. cbn [causes] in Ce. destruct Ce as (_ & -> & _). contradiction.
  - destruct (IH Ln) as [I1 I2]. split; [exact I1|]. intros run0 k bno g m [I|I]; [discriminate I|exact (I2 _ _ _ _ _ I)].
  - destruct (IH Ln) as [I1 I2]. split; [exact I1|]. intros run0 k bno g0 m [I|I]; [discriminate I|exact (I2 _ _ _ _ _ I)].
Qed.

(** A later answer has a larger number. *)
Lemma resp_order n W tr B : calls n W tr -> (N.of_nat (length n) + 2 < 2 ^ 96)%N ->
  forall t2 t1 run k bno g m run' k' bno' g' m', tr = t2 ++ EResp run B k bno g m :: t1 ->
  In (EResp run' B k' bno' g' m') t1 -> (le_dec bno' < le_dec bno)%N.
Proof.
  intros C. induction C as [W St|n W tr A r0 c M s' r tr' Hy IH Al E Ex Ep Sp|n W tr x Hy IH|n W tr g0 ck ds Hy IH Cp];
    intros Ln t2 t1 run k bno g m run' k' bno' g' m' Et I.
  - destruct t2; discriminate Et.
  - assert (N.of_nat (length n) + 2 < 2 ^ 96)%N as Ln' by (cbn [length] in Ln; lia).
    destruct Ex as [->|(e & Ce & ->)]; [eapply (IH Ln'); eauto|].
    destruct t2 as [|e2 t2]; cbn [List.app] in Et.
    2:{ assert (tr = t2 ++ EResp run B k bno g m :: t1) by congruence. eapply (IH Ln'); eauto. }
    assert (e = EResp run B k bno g m) by congruence. assert (t1 = tr) by congruence. subst e t1. clear Et. cbn [causes] in Ce.
    destruct Ce as (_ & <- & _ & _ & -> & _).
    pose proof (proj2 (resp_numbers n W tr B Hy Ln') _ _ _ _ _ I). lia.
  - destruct t2 as [|e2 t2]; cbn [List.app] in Et; [discriminate Et|].
    assert (tr = t2 ++ EResp run B k bno g m :: t1) by congruence. eapply (IH Ln); eauto.
  - destruct t2 as [|e2 t2]; cbn [List.app] in Et; [discriminate Et|].
    assert (tr = t2 ++ EResp run B k bno g m :: t1) by congruence. eapply (IH Ln); eauto.
Qed.

(** The handshake that gets its answer is the latest one. *)
Lemma conf_latest W tr A run p m : history W tr ->
  forall t2 t1, tr = t2 ++ EConf run A p m :: t1 -> latest A p run t1.
Proof.
  intros Hy. induction Hy as [W St|W tr B r0 c M s' r tr' Hy IH Al E Ex Ep Sp|W tr n Hy IH|W tr g0 ck ds Hy IH Cp]; intros t2 t1 Et.
  - destruct t2; discriminate Et.
  - destruct Ex as [->|(e & Ce & ->)]; [exact (IH _ _ Et)|].
    destruct t2 as [|e2 t2]; cbn [List.app] in Et.
    2:{ assert (tr = t2 ++ EConf run A p m :: t1) by congruence. eapply IH; eauto. }
    assert (e = EConf run A p m) by congruence. assert (t1 = tr) by congruence. subst e t1. clear Et. cbn [causes] in Ce.
    destruct Ce as (<- & _ & _ & Lt & _). exact Lt.
  - destruct t2 as [|e2 t2]; cbn [List.app] in Et; [discriminate Et|]. apply (IH t2 t1). congruence.
  - destruct t2 as [|e2 t2]; cbn [List.app] in Et; [discriminate Et|]. apply (IH t2 t1). congruence.
Qed.

(** * The last used number *)

Lemma acceptable_mono B i tr tr' m n : incl tr tr' -> acceptable B i tr m n -> acceptable B i tr' m n.
Proof.
  intros L (k & g & q & ck & S & Nq & Cn & Kn). exists k, g, q, ck. repeat (split; [assumption|]).
  intros t It. eapply knows_mono; eauto.
Qed.

(** The last used number is the initial one or that of an InitConf that was delivered. *)
Lemma used_from n W tr B i x : cfg_ok cfg -> calls n W tr -> pe (W B) i = Some x ->
  p_biscuit_used x = zeros 12 \/ exists m, In (B, SIC m) n /\ acceptable B i tr m (p_biscuit_used x).
Proof.
  intros C Hy. revert x. induction Hy as [W St|n W tr A run c M s' r tr' Hy IH Al E Ex Ep Sp|n W tr a Hy IH|n W tr g0 ck ds Hy IH Cp]; intros x X.
  - destruct (St B) as (i0 & j & k0 & k1 & hk & Ew). rewrite Ew in X. unfold pe in X. destruct i; discriminate.
  - pose proof (extends_incl _ _ _ _ _ _ _ _ _ _ _ Ex) as L.
    assert (forall y, pe (W B) i = Some y -> p_biscuit_used y = zeros 12 \/
      exists m, In (B, SIC m) ((A, M) :: n) /\ acceptable B i tr' m (p_biscuit_used y)) as IH'.
    { intros y Y. destruct (IH y Y) as [Z|(m & Z1 & Z2)]; [now left|]. right. exists m. split; [now right|].
      eapply acceptable_mono; eauto. }
    unfold put in X. destruct (Nat.eqb_spec A B) as [->|N]; [|exact (IH' x X)].
    destruct (C95_histories_explained P v cfg W tr (calls_history _ _ _ Hy)) as [_ K]. destruct (K B) as [Iv G].
    destruct (pe (W B) i) as [y|] eqn:Y.
    + destruct (used_step P OK v cfg B run tr c M (W B) s' r i y C Iv G Al E Y) as (x' & X' & U).
      assert (x' = x) by congruence. subst x'. destruct U as [U|(m & -> & U)].
      * rewrite U. exact (IH' y eq_refl).
      * right. exists m. split; [now left|]. eapply acceptable_mono; eauto.
    + left. destruct Al as (Va & _). eapply new_peer_unused; eauto.
  - destruct (IH x X) as [Z|(m & Z1 & Z)]; [now left|]. right. exists m. split; [exact Z1|]. eapply acceptable_mono; [|exact Z].
    intros z; now right.
  - destruct (IH x X) as [Z|(m & Z1 & Z)]; [now left|]. right. exists m. split; [exact Z1|]. eapply acceptable_mono; [|exact Z].
    intros z; now right.
Qed.

Lemma resp_in_order n W tr B run k bno g m run' k' bno' g' m' : calls n W tr -> (N.of_nat (length n) + 2 < 2 ^ 96)%N ->
  In (EResp run B k bno g m) tr -> In (EResp run' B k' bno' g' m') tr -> le_dec bno = le_dec bno' -> run = run'.
Proof.
  intros C Ln I I' E. apply in_split in I. destruct I as (t2 & t1 & Et).
  rewrite Et in I'. apply in_app_or in I'. destruct I' as [I'|[I'|I']]; [|congruence|].
  - apply in_split in I'. destruct I' as (t4 & t3 & ->). rewrite <- List.app_assoc in Et. cbn [List.app] in Et.
    assert (le_dec bno < le_dec bno')%N; [|lia]. eapply resp_order; eauto. apply in_or_app. right. now left.
  - assert (le_dec bno' < le_dec bno)%N; [|lia]. eapply resp_order; eauto.
Qed.

(** * C110 *)

(** The latest handshake that [A] has started with [B] got [B]'s answer [rh], and [ic] is the InitConf that [A] made of it.  As long as
    nobody has delivered [ic] to [B], the last number [B] has used for [A] is smaller than that of [ic]: whatever else
    was delivered, [ic] is not too old. *)
Theorem conf_not_outdated n W tr A B p q i x run rh ic ck run' k bno c0 :
  cfg_ok cfg -> calls n W tr -> (N.of_nat (length n) + 2 < 2 ^ 96)%N ->
  no_biscuit_key tr -> keys_in_order tr p -> keys_in_order tr q ->
  e_pk p = pkey B -> e_pk q = pkey A -> e_alg p = e_alg q ->
  nth_error (cfg B) i = Some q -> pe (W B) i = Some x ->
  latest A p run tr -> In (EConf run A p rh) tr -> s_conf run A p rh = Some (ic, ck) ->
  In (EResp run' B k bno (e_alg p) (fst (s_init run A p))) tr ->
  s_resp (cfg B) run' B k bno (e_alg p) (fst (s_init run A p)) = Some (q, rh, c0) ->
  ~ In (B, SIC ic) n ->
  (le_dec (p_biscuit_used x) < le_dec bno)%N.
Proof.
  intros C Hy Ln NB Kp Kq Ep Eq Eg Nq X (t2 & t1 & Et & La) Ic Sc Ir Sr Nd.
  pose proof (calls_history _ _ _ Hy) as Hh. destruct (C95_histories_explained P v cfg W tr Hh) as [V K].
  assert (L1 : incl t1 tr) by (rewrite Et; intros z Z; apply in_or_app; right; now right).
  (* the answer came after the start of the latest handshake *)
  assert (I2 : In (EResp run' B k bno (e_alg p) (fst (s_init run A p))) t2).
  { assert (Ir' := Ir). rewrite Et in Ir'. apply in_app_or in Ir'. destruct Ir' as [Z|[Z|Z]]; [exact Z|discriminate Z|exfalso].
    assert (V1 : Sym.valid cfg (EInit run A p :: t1)) by (rewrite Et in V; exact (valid_suffix _ _ _ V)).
    assert (Fr : fresh run t1) by (inversion V1; auto).
    assert (V0 : Sym.valid cfg t1) by (exact (valid_tail _ _ _ V1)).
    destruct (valid_split cfg _ _ V0 Z) as (t4 & t3 & E3 & V3).
    assert (L3 : incl t3 t1) by (rewrite E3; intros z Y; apply in_or_app; right; now right).
    apply (proj1 Fr A p). apply L3. apply (hello_made cfg t3 run A p); [exact (valid_tail _ _ _ V3)| |].
    - inversion V3; auto.
    - apply order_pk. eapply order_before; [|exact Kp]. intros z Y. auto. }
  destruct (used_from n W tr B i x C Hy X) as [Z|(m & Dm & k1 & g1 & q1 & ck1 & Sd & Nq1 & Cn & Kn)].
  { rewrite Z. assert (le_dec (zeros 12) = 0%N) as -> by (vm_compute; reflexivity).
    pose proof (proj2 (resp_numbers n W tr B Hy Ln) _ _ _ _ _ Ir). lia. }
  assert (q1 = q) by congruence. subst q1.
  destruct (responder_agrees cfg tr B k1 g1 m q ck1 V Kn Sd (NB B k1)) as (run1 & bno1 & m1 & rh1 & c1 & J1 & J2 & J3).
  destruct (J3 (order_pk _ _ _ _ Kq)) as (run0 & A0 & p0 & H1 & H2 & -> & H4 & H5 & H6 & H7).
  assert (A0 = A) by (unfold pkey, skey in *; congruence). subst A0.
  pose proof (conf_init _ _ _ _ _ _ V H1) as In0.
  pose proof (conf_init _ _ _ _ _ _ V Ic) as In1.
  assert (CfgA : forall r e, In (EInit r A e) tr -> In e (cfg A)).
  { intros r e Z. destruct (valid_split cfg _ _ V Z) as (? & ? & _ & V3). inversion V3; auto. }
  assert (p0 = p).
  { destruct (In_nth_error _ _ (CfgA _ _ In0)) as [j0 N0]. destruct (In_nth_error _ _ (CfgA _ _ In1)) as [j1 N1].
    apply (C A j0 j1 p0 p N0 N1). f_equal; congruence. }
  subst p0.
  assert (bno1 = p_biscuit_used x) as <-.
  { destruct (conf_spec _ _ _ _ _ _ H2) as (pt & _ & _ & _ & _ & Wb & _).
    destruct (resp_spec _ _ _ _ _ _ _ _ _ _ J2) as (pt' & _ & _ & _ & _ & _ & _ & _ & _ & _ & G6 & _).
    unfold conf_number in Cn. rewrite Wb, G6 in Cn. unfold s_biscuit in Cn. cbn [PSymLink.ev] in Cn. congruence. }
  (* another handshake: it was over before the latest one was started *)
  destruct (Nat.eq_dec run0 run) as [->|Nr].
  - exfalso. destruct (In_nth_error _ _ Ic) as [a Ha]. destruct (In_nth_error _ _ H1) as [b Hb].
    assert (a = b) by (eapply C99_one_answer; eauto). subst b. assert (rh1 = rh) by congruence. subst rh1.
    assert (m = ic) by congruence. subst m. contradiction.
  - assert (Z : In (EInit run0 A p) t1).
    { assert (Z := In0). rewrite Et in Z. apply in_app_or in Z. destruct Z as [Z|[Z|Z]]; [exfalso; exact (La _ Z)|congruence|exact Z]. }
    assert (Y : In (EConf run0 A p rh1) t1).
    { assert (Y := H1). rewrite Et in Y. apply in_app_or in Y. destruct Y as [Y|[Y|Y]]; [exfalso|discriminate Y|exact Y].
      apply in_split in Y. destruct Y as (t4 & t3 & ->). rewrite <- List.app_assoc in Et. cbn [List.app] in Et.
      destruct (conf_latest W tr A run0 p rh1 Hh _ _ Et) as (t6 & t5 & E6 & La').
      (* [EInit run] follows [EInit run0] *)
      assert (In (EInit run A p) t6 \/ In (EInit run0 A p) t3) as [D|D]; [|exact (La' _ D)|].
      - assert (nodup : forall l2 l1 l4 l3, l2 ++ EInit run A p :: l1 = l4 ++ EInit run0 A p :: l3 ->
          In (EInit run A p) l4 \/ In (EInit run0 A p) l2).
        { clear - Nr. induction l2 as [|e l2 IH]; intros l1 [|e4 l4] l3 E; cbn [List.app] in E.
          - congruence.
          - left. left. congruence.
          - right. left. congruence.
          - destruct (IH l1 l4 l3) as [D|D]; [congruence|left; now right|right; now right]. }
        apply (nodup t3 t1 t6 t5). exact E6.
      - apply (La run0). apply in_or_app. right. now right. }
    assert (V1 : Sym.valid cfg t1) by (rewrite Et in V; exact (valid_tail _ _ _ (valid_suffix _ _ _ V))).
    destruct (valid_split cfg _ _ V1 Y) as (t4 & t3 & E3 & V3).
    assert (L3 : incl t3 t1) by (rewrite E3; intros z D; apply in_or_app; right; now right).
    destruct (valid_conf _ _ _ _ _ _ V3) as (V4 & _ & K4 & ic4 & ck4 & S4).
    destruct (initiator_agrees cfg t3 run0 A p rh1 ic4 ck4 V4 K4 S4) as (B' & run1' & k' & bno' & q' & ck' & R1 & R2 & R3 & _).
    { apply order_pk. eapply order_before; [|exact Kp]. intros z D. auto. }
    { intros r B' k' b' g' m' _ _ _ D. exact (NB B' k' (L1 _ (L3 _ D))). }
    assert (B' = B) by (unfold pkey, skey in *; congruence). subst B'.
    assert (run1' = run1).
    { destruct (resp_spec _ _ _ _ _ _ _ _ _ _ R2) as (? & _ & _ & _ & _ & G1 & _).
      destruct (resp_spec _ _ _ _ _ _ _ _ _ _ J2) as (? & _ & _ & _ & _ & G2 & _). congruence. }
    subst run1'.
    destruct (resp_unique _ _ _ _ _ _ _ _ _ _ _ _ _ V (L1 _ (L3 _ R1)) J1) as (_ & _ & -> & _ & _).
    apply in_split in I2. destruct I2 as (t6 & t5 & E5).
    apply (resp_order n W tr B Hy Ln t6 (t5 ++ EInit run A p :: t1) run' k bno (e_alg p) (fst (s_init run A p)) run1 k' bno1 (e_alg p) (fst (s_init run0 A p))).
    + rewrite Et, E5, <- List.app_assoc. reflexivity.
    + apply in_or_app. right. right. auto.
Qed.

(** * The confirmation is accepted *)

Lemma resp_lens W tr run B k bno g m : history W tr -> In (EResp run B k bno g m) tr ->
  length bno = 12 /\ length (v (NNonce run)) = 24.
Proof.
  intros Hy. induction Hy as [W St|W tr A r0 c M s' r tr' Hy IH Al E Ex Ep Sp|W tr n Hy IH|W tr g0 ck ds Hy IH Cp]; intros I.
  - destruct I.
  - destruct Ex as [->|(e & Ce & ->)]; [exact (IH I)|]. destruct I as [->|I]; [|exact (IH I)]. cbn [causes] in Ce.
    destruct Ce as (-> & -> & _ & _ & -> & _). destruct (C95_histories_explained P v cfg W tr Hy) as [_ K]. destruct (K A) as [Iv _].
    split; [apply (i_bctr P _ Iv)|]. destruct Al as (Va & Nm & _). rewrite <- (nm_nonce _ _ _ _ _ _ Nm).
    destruct Va as [(_ & L & _) _]. unfold tag_nonce. destruct (c_bnonce (c_coins c)); [discriminate L|exact L].
  - destruct I as [I|I]; [discriminate I|exact (IH I)].
  - destruct I as [I|I]; [discriminate I|exact (IH I)].
Qed.

Lemma ev_chain_len g pk l : length (PSymLink.ev P v (chain g pk l)) = 32.
Proof.
  induction l as [|y l IH] using rev_ind; [apply khash_len|]. rewrite chain_snoc. apply khash_len.
Qed.

(** Both ends compute the same. *)
Lemma honest_done peers A B p q run rh ic ck run' k bno c0 :
  e_pk p = pkey B -> e_pk q = pkey A -> e_psk q = e_psk p ->
  s_resp peers run' B k bno (e_alg p) (fst (s_init run A p)) = Some (q, rh, c0) ->
  s_conf run A p rh = Some (ic, ck) -> s_done peers B k (e_alg p) ic = Some (q, ck).
Proof.
  intros P1 P2 P3 S E. set (m := fst (s_init run A p)) in *.
  destruct (resp_spec _ _ _ _ _ _ _ _ _ _ S) as (pt & _ & F & P4 & _ & Z1 & Z2 & Z3 & Z4 & Z5 & Z6 & Z7).
  fold (responder_items B q m rh run') in Z5.
  assert (It : responder_items B q m rh run' ++ [z_biscuit rh] = initiator_items run A p rh).
  { assert (K1 : kdec false (skey B) (y_sctr m) = Shk false (pkey B) (Nm (NCoin run false))).
    { change (y_sctr m) with (Ct false (e_pk p) (Nm (NCoin run false))). rewrite P1. apply kdec_own. }
    assert (K2 : kdec true (Nm (NEsk run)) (z_ecti rh) = Shk true (y_epki m) (Nm (NCoin run' false))).
    { rewrite Z3. apply kdec_own. }
    assert (K3 : kdec false (skey A) (z_scti rh) = Shk false (pkey A) (Nm (NCoin run' true))).
    { rewrite Z4, P2. apply kdec_own. }
    unfold responder_items, initiator_items, hello_all, hello_items. rewrite K1, K2, K3, P1, P2, P3.
    fold m. rewrite <- !List.app_assoc. reflexivity. }
  assert (Ck : s_ckmix (e_alg p) c0 (z_biscuit rh) = chain (e_alg p) (e_pk p) (initiator_items run A p rh)).
  { rewrite <- It, Z5, P1, chain_snoc. reflexivity. }
  rewrite Ck in Z7. destruct (conf_spec _ _ _ _ _ _ E) as (pt' & Y1 & Y2 & Y3 & Y4 & Y5 & Y6 & Y7). cbn zeta in Y7.
  fold (initiator_items run A p rh) in Y6, Y7.
  unfold s_done, s_unbiscuit. rewrite Y3, Y4, Y5, Z6. unfold s_biscuit at 1. unfold s_biscuit at 1.
  unfold sdec. rewrite P4, !term_eqb_refl. cbn [Bool.eqb andb]. rewrite <- P4, F.
  unfold s_seal. rewrite P4, <- Z6, Ck, <- Z7.
  match goal with |- context [s_open _ ?c (w_auth ic)] =>
    assert (X : c = chain (e_alg p) (e_pk p) (initiator_items run A p rh ++ [z_auth rh; z_sidi rh; z_sidr rh])) end.
  { rewrite chain_app. reflexivity. }
  rewrite X, Y6, open_tag, <- Y6. f_equal. f_equal. rewrite Y7. unfold conf_items.
  change [z_auth rh; z_sidi rh; z_sidr rh; w_auth ic] with ([z_auth rh; z_sidi rh; z_sidr rh] ++ [w_auth ic]).
  rewrite List.app_assoc, chain_snoc. reflexivity.
Qed.

(** What [s_done] accepts the server accepts, if the number is larger than the last one. *)
Lemma done_accepted s i x peers run B k bno g m q q0 c0 ck :
  is_agent P v s B -> s_done peers B k g m = Some (q, ck) ->
  w_biscuit m = s_biscuit run B k bno q0 (w_sidi m) (w_sidr m) c0 ->
  length bno = 12 -> length (PSymLink.ev P v c0) = 32 -> length (v (NNonce run)) = 24 ->
  find_peer s (PSymLink.ev P v (s_pid (e_alg q) (e_pk q))) = Some i -> pe s i = Some x -> is_entry P v x q ->
  cs_value (get_bk (nonce_slot (PSymLink.ev P v (w_biscuit m))) s) = v (NBk B k) ->
  (le_dec (p_biscuit_used x) < le_dec bno)%N ->
  exists core, ic_accept P s (ev_ic P v m) g = inl (i, x, bno, core) /\ hc_ck core = PSymLink.ev P v ck /\ hc_alg core = e_alg q.
Proof.
  intros Ag D Wb L1 L2 L3 F X En BK Lt.
  assert (Sl : nonce_slot (PSymLink.ev P v (w_biscuit m)) = nonce_slot (v (NNonce run))).
  { rewrite Wb. unfold s_biscuit. cbn [PSymLink.ev]. unfold xenc. destruct (v (NNonce run)); [discriminate L3|reflexivity]. }
  assert (BK' := BK). rewrite Sl in BK'.
  destruct (C94_done P OK v s i x peers run B k bno g m q q0 c0 ck Ag D Wb L1 L2 L3 F X En BK') as (core & Ld & Hc & Ha).
  unfold load_biscuit, bind at 1, get at 1 in Ld. unfold ic_accept. cbn [ev_ic ic_sidi ic_sidr ic_biscuit ic_auth].
  destruct (xdec _ _ _ _) as [pt|]; [|discriminate Ld]. unfold need at 1, bind at 1, ret at 1 in Ld.
  destruct (find_peer s (bi_pidi (parse_bi pt))) as [i'|] eqn:Fi; [|discriminate Ld].
  unfold need at 1, bind at 1, ret at 1 in Ld. unfold bind at 1, get_peer in Ld. fold (pe s i') in Ld.
  destruct (pe s i') as [x'|] eqn:X'; [|discriminate Ld]. unfold ret in Ld.
  assert (i' = i) by congruence. subst i'. assert (x' = x) by congruence. subst x'.
  assert (Eb : bi_no (parse_bi pt) = bno) by congruence.
  match type of Ld with (_, Ok (_, _, ?cr)) = _ => assert (core = cr) as -> by congruence end.
  destruct En as (_ & _ & E3). cbn [hc_alg] in Ha.
  match goal with |- context [handle_ic_ck P ?cr ?mm] => match type of Hc with handle_ic_ck P ?cr' _ = _ =>
    replace cr with cr' by reflexivity end end.
  rewrite Hc, Eb. destruct (N.leb_spec (le_dec bno) (le_dec (p_biscuit_used x))); [lia|].
  eexists. split; [reflexivity|]. split; [reflexivity|exact E3].
Qed.

Theorem latest_conf_accepted ms W tr A B p q i x run run' k rh ic ck c rx tx :
  cfg_ok cfg -> calls ms W tr -> (N.of_nat (length ms) + 2 < 2 ^ 96)%N ->
  no_biscuit_key tr -> keys_in_order tr p -> keys_in_order tr q ->
  e_pk p = pkey B -> e_pk q = pkey A -> nth_error (cfg B) i = Some q -> nth_error (s_peers (W B)) i = Some x ->
  latest A p run tr -> In (EConf run A p rh) tr -> s_conf run A p rh = Some (ic, ck) ->
  answered cfg tr run' B k (fst (s_init run A p)) q rh ->
  ~ In (B, SIC ic) ms ->
  c_op c = OMsg rx tx -> System.valid c (W B) -> first_type rx = Some MInitConf -> length rx = 176 ->
  heard P v cfg B (W B) tr rx (SIC ic) -> check_seal P (W B) (e_alg q) IC_LEN rx = true ->
  cs_value (get_bk (nonce_slot (PSymLink.ev P v (w_biscuit ic))) (W B)) = v (NBk B k) ->
  idx_get (KKnown (known_hash P (W B) rx)) (s_index (W B)) = None ->
  (forall j, idx_get (KSid (PSymLink.ev P v (w_sidr ic))) (s_index (W B)) = Some j -> j = i) ->
  exists s' m, exec P c (W B) = (s', Ok (RHandled m)) /\ mr_exchanged m = Some i /\
    key_at P s' i (PSymLink.ev P v (s_osk (e_alg q) ck (s_ds (e_alg q) (p_ds x)))).
Proof.
  intros C Hy Ln NB Kp Kq Ep Eq Nq X La Ic Sc (bno & g & c0 & Ir & Sr) Nd Eo Va FT Lx Hd Se BK NK Ns.
  pose proof (calls_history _ _ _ Hy) as Hh. destruct (C95_histories_explained P v cfg W tr Hh) as [V K]. destruct (K B) as [Iv G].
  (* the answer was for this hash function and pre-shared key *)
  assert (g = e_alg p /\ e_psk q = e_psk p /\ e_alg q = e_alg p) as (-> & Psk & Eg).
  { destruct (valid_split cfg _ _ V Ic) as (t4 & t3 & E3 & V3).
    assert (L3 : incl t3 tr) by (rewrite E3; intros z D; apply in_or_app; right; now right).
    destruct (valid_conf _ _ _ _ _ _ V3) as (V4 & _ & K4 & ic4 & ck4 & S4).
    destruct (initiator_agrees cfg t3 run A p rh ic4 ck4 V4 K4 S4) as (B' & run1' & k' & bno' & q' & ck' & R1 & R2 & R3 & R4 & R5).
    { apply order_pk. eapply order_before; [|exact Kp]. exact L3. }
    { intros r B' k' b' g' m' _ _ _ D. exact (NB B' k' (L3 _ D)). }
    assert (run1' = run').
    { destruct (resp_spec _ _ _ _ _ _ _ _ _ _ R2) as (? & _ & _ & _ & _ & G1 & _).
      destruct (resp_spec _ _ _ _ _ _ _ _ _ _ Sr) as (? & _ & _ & _ & _ & G2 & _). congruence. }
    subst run1'. destruct (resp_unique _ _ _ _ _ _ _ _ _ _ _ _ _ V (L3 _ R1) Ir) as (<- & <- & <- & <- & _).
    assert (q' = q) by congruence. subst q'. destruct (resp_spec _ _ _ _ _ _ _ _ _ _ Sr) as (? & _ & _ & G1 & _). auto. }
  assert (Lt : (le_dec (p_biscuit_used x) < le_dec bno)%N).
  { eapply (conf_not_outdated ms W tr A B p q i x run rh ic ck run' k bno c0); eauto. }
  destruct (resp_lens W tr run' B k bno _ _ Hh Ir) as [L1 L3].
  pose proof (honest_done (cfg B) A B p q run rh ic ck run' k bno c0 Ep Eq Psk Sr Sc) as Dn.
  destruct (resp_spec _ _ _ _ _ _ _ _ _ _ Sr) as (pt & _ & _ & _ & _ & Z1 & Z2 & _ & _ & Z5 & Z6 & _).
  destruct (conf_spec _ _ _ _ _ _ Sc) as (pt' & _ & _ & Y3 & Y4 & Y5 & _).
  destruct (ao_peers _ _ _ _ _ _ G i x X) as (q' & Nq' & Po). assert (q' = q) by congruence. subst q'.
  pose proof (po_entry _ _ _ _ _ _ _ Po) as En. destruct En as (E1 & E2 & E3).
  assert (Fp : find_peer (W B) (PSymLink.ev P v (s_pid (e_alg q) (e_pk q))) = Some i).
  { pose proof (i_peer2 P (W B) Iv i x X) as Kp2. unfold pidt in Kp2. rewrite E1, E3 in Kp2. exact Kp2. }
  assert (Wb : w_biscuit ic = s_biscuit run' B k bno q (w_sidi ic) (w_sidr ic) c0) by (rewrite Y3, Y4, Y5; exact Z6).
  assert (L2 : length (PSymLink.ev P v c0) = 32) by (rewrite Z5; apply ev_chain_len).
  destruct (done_accepted (W B) i x (cfg B) run' B k bno (e_alg p) ic q q c0 ck (ao_agent _ _ _ _ _ _ G) Dn Wb L1 L2 L3 Fp X
    (conj E1 (conj E2 E3)) BK Lt) as (core & Ac & Ec & Ea).
  unfold heard in Hd. rewrite FT in Hd. destruct Hd as (Em & Kn & Id).
  assert (Ax : p_alg x = e_alg p) by congruence.
  assert (LT : 1100 <= length tx) by (destruct Va as [_ Va]; rewrite Eo in Va; exact Va).
  destruct (init_conf_accepted P (c_now c) (c_coins c) rx tx (W B) i x bno core (e_alg p) Iv LT FT Lx NK) as (s2 & x2 & R1 & R2 & R3 & R4 & R5 & R6).
  - intros Eb. destruct (ic_accept P (W B) (parse_ic (env_payload IC_LEN rx)) Shake) as [[[[p1 x1] b1] core1]|e] eqn:Ac1; [exfalso|eauto].
    rewrite Em in Ac1. destruct (conv_done P OK v cfg (W B) tr B k Shake ic p1 x1 b1 core1 C Iv G Id BK Ac1) as (q1 & ck1 & _ & S1 & _).
    destruct (done_spec _ _ _ _ _ _ _ S1) as (n1 & b2 & c1 & pt1 & W1 & _). rewrite Wb in W1. unfold s_biscuit, s_biscuit_adata in W1.
    assert (e_alg q = Shake) by congruence. congruence.
  - rewrite Em. exact Ac.
  - exact Ax.
  - intros j. rewrite Em. cbn [ev_ic ic_sidr]. apply Ns.
  - congruence.
  - eexists. eexists. split; [|split].
    + unfold exec. rewrite Eo. unfold map_ok, bind. rewrite R1. reflexivity.
    + reflexivity.
    + replace (PSymLink.ev P v (s_osk (e_alg q) ck (s_ds (e_alg q) (p_ds x)))) with
        (hmix P (se_alg (set_txnm 1 (ic_session P (c_now c) x core))) (se_ck (set_txnm 1 (ic_session P (c_now c) x core))) (ds_compress P (p_alg x2) (p_ds x2)));
        [apply osk_of; [exact R2|exact R3]|].
      unfold ic_session, enter_live, set_txnm. cbn [se_alg se_ck]. rewrite R4, R5, Ec, Ea, E3. unfold s_osk. cbn [PSymLink.ev].
      rewrite ev_ds. reflexivity.
Qed.
End Order.

(** Whatever a server does in a call, the history goes on. *)
Lemma calls_go P v cfg n W tr A run c M s' r : correct P -> cfg_ok cfg -> calls P v cfg n W tr ->
  allowed P v cfg A run tr c M (W A) -> exec P c (W A) = (s', r) ->
  exists tr', extends P v cfg A (W A) s' run (initiated c) M tr tr' /\ calls P v cfg ((A, M) :: n) (put A s' W) tr' /\
    forall b, output r = Some b -> spoken P v cfg tr' b.
Proof.
  intros OK C Hy Al E.
  destruct (C95_every_call_explained P OK v cfg W tr A run c M s' r C (calls_history _ _ _ _ _ _ Hy) Al E) as (tr' & Ex & Hy' & Sp).
  exists tr'. split; [exact Ex|]. split; [|exact Sp]. eapply c_call; eauto.
  exact (C95_histories_explained P v cfg _ _ Hy').
Qed.

(** * C110 *)

(** A message that is delivered to [A] leaves a handshake that waits for its RespHello as it is, unless it is the peer's own answer
    to the latest InitHello of [A], or an InitConf that the peer made. *)
Theorem C110_pending_kept P v cfg W tr A i q x h run c M rx s' r :
  correct P -> cfg_ok cfg -> history P v cfg W tr -> no_biscuit_key tr ->
  nth_error (cfg A) i = Some q -> keys_in_order tr q ->
  nth_error (s_peers (W A)) i = Some x -> p_handshake x = Some h -> hs_next h = ExpRespHello ->
  allowed P v cfg A run tr c M (W A) -> received c = Some rx -> exec P c (W A) = (s', r) ->
  exists x', nth_error (s_peers s') i = Some x' /\
    (same_hs h x' \/
     (exists m run1 B run' k q', M = SRH m /\ e_pk q = pkey B /\ latest A q run1 tr /\
        answered cfg tr run' B k (fst (s_init run1 A q)) q' m) \/
     (exists m run1 B p rh ck, M = SIC m /\ e_pk q = pkey B /\ initiator_has tr run1 B p rh ck /\
        s_conf run1 B p rh = Some (m, ck))).
Proof.
  intros OK C Hy NB Nq KO X Eh En Al Rc E.
  destruct (C95_histories_explained P v cfg W tr Hy) as [V K]. destruct (K A) as [Iv G].
  assert (exists x', pe s' i = Some x' /\ hs_or P v cfg A i tr M h x') as (x' & X' & U).
  { destruct Al as (Va & _ & _ & Al). pose proof (exec_step P c (W A) s' r Iv Va E) as St. unfold received in Rc.
    destruct St as [psk pk a ds Eo Hx|psk pk a ds Eo Hx|p tx q0 Eo N0 Hx|p tx y s1 Eo Y Hx R|rx0 tx s1 r0 Eo Ms
      |rx0 tx host s1 r0 Eo Ms|s1 r0 Eo Ms|p tx r0 Eo Np|p r0 Eo Np]; rewrite Eo in Rc, Al; try discriminate Rc.
    - eapply hs_msg; eauto.
    - assert (Frame : forall s0, s_peers s0 = s_peers (W A) -> exists x', pe s0 i = Some x' /\ hs_or P v cfg A i tr M h x').
      { intros s0 Ep. exists x. split; [unfold pe in *; now rewrite Ep|left; now apply same_hs_refl]. }
      destruct Ms as [e|s' r FT Ms|s' r FT L CV Ms|e FT|j l FT L El CV]; try now apply Frame.
      + eapply hs_msg; eauto.
      + destruct (cs_choice_frame (c_now c) (c_coins c) (W A)) as (_ & _ & _ & _ & _ & F4 & _).
        eapply (hs_msg P OK v cfg A tr (c_now c) (c_coins c) rx0 M tx (fst (cs_choice (c_now c) (c_coins c) (W A)))); eauto.
        * apply (cs_choice_good P (c_now c) (c_coins c) (W A) Iv).
        * now apply agent_choice.
        * unfold heard in *. rewrite FT in *. exact Al.
        * unfold pe in *. now rewrite F4.
      + apply Frame. apply (cs_choice_frame (c_now c) (c_coins c) (W A)).
      + apply Frame. apply (cs_choice_frame (c_now c) (c_coins c) (W A)). }
  exists x'. split; [exact X'|]. destruct U as [U|[(m & -> & q0 & run1 & ic & ck & N0 & La & Sc & Kn)|(m & n & -> & k & g & q0 & ck & Sd & N0 & _ & Kn)]].
  - now left.
  - right. left. assert (q0 = q) by congruence. subst q0.
    destruct (initiator_agrees cfg tr run1 A q m ic ck V Kn Sc (order_pk _ _ _ _ KO)) as (B & run' & k & bno & q' & ck' & R1 & R2 & R3 & _).
    { intros r0 B k b g m' _ _ _ D. exact (NB B k D). }
    exists m, run1, B, run', k, q'. split; [reflexivity|]. split; [exact R3|]. split; [exact La|]. exists bno, (Sym.e_alg q), ck'. auto.
  - right. right. assert (q0 = q) by congruence. subst q0.
    destruct (responder_agrees cfg tr A k g m q ck V Kn Sd (NB A k)) as (run1 & bno1 & m1 & rh1 & c1 & J1 & J2 & J3).
    destruct (J3 (order_pk _ _ _ _ KO)) as (run0 & A0 & p0 & H1 & H2 & _ & H4 & H5 & _).
    exists m, run0, A0, p0, rh1, ck. split; [reflexivity|]. split; [exact H5|]. split; [split; [exact H1|eauto]|exact H2].
Qed.
Print Assumptions C110_pending_kept.

(** The latest handshake that [A] has started with [B] got [B]'s answer [rh], and [ic] is the InitConf that [A] made of it.  Whatever
    was delivered to the servers: as long as [ic] was not delivered to [B], the last biscuit number that [B] has
    used for [A] is smaller than the number of [ic]. *)
Theorem C110_latest_conf_not_outdated P v cfg ms W tr A B p q i run rh ic ck run' k bno c0 :
  correct P -> cfg_ok cfg -> calls P v cfg ms W tr -> (N.of_nat (length ms) + 2 < 2 ^ 96)%N ->
  no_biscuit_key tr -> keys_in_order tr p -> keys_in_order tr q ->
  e_pk p = pkey B -> e_pk q = pkey A -> Sym.e_alg p = Sym.e_alg q ->
  nth_error (cfg B) i = Some q -> i < length (s_peers (W B)) ->
  latest A p run tr -> In (EConf run A p rh) tr -> s_conf run A p rh = Some (ic, ck) ->
  In (EResp run' B k bno (Sym.e_alg p) (fst (s_init run A p))) tr ->
  s_resp (cfg B) run' B k bno (Sym.e_alg p) (fst (s_init run A p)) = Some (q, rh, c0) ->
  ~ In (B, SIC ic) ms ->
  (last_used (W B) i < le_dec bno)%N.
Proof.
  intros OK C Hy Ln NB Kp Kq Ep Eq Eg Nq Li La Ic Sc Ir Sr Nd. unfold last_used.
  destruct (pe_some (W B) i Li) as [x X]. unfold pe in X. rewrite X.
  eapply (conf_not_outdated P OK v cfg ms W tr A B p q i x run rh ic ck run' k bno c0); eauto.
Qed.
Print Assumptions C110_latest_conf_not_outdated.

(** The situation of C110: the latest handshake that [A] has started with [B] got [B]'s answer [rh], [ic] is the InitConf that [A] made
    of it, and [rx], a message with the fields of [ic], is about to be handled by [B]. *)
Record conf_arrives (P : prims) (v : name -> bytes) (cfg : nat -> list entry) (ms : list (nat * smsg)) (W : nat -> srv)
    (tr : list Sym.event) (A B : nat) (p q : entry) (i : nat) (run : nat) (ic : s_ic) (ck : term)
    (c : call) (rx tx : bytes) : Prop := {
  ca_cfg : cfg_ok cfg;
  (* [ms] are the messages handled so far, the last one first *)
  ca_calls : calls P v cfg ms W tr;
  ca_few : (N.of_nat (length ms) + 2 < 2 ^ 96)%N;
  (* the keys of the two servers were not given to the attacker *)
  ca_biscuit : no_biscuit_key tr;
  ca_keys : keys_in_order tr p /\ keys_in_order tr q;
  (* [p] is [B] as a peer of [A], and [q] is [A] as peer [i] of [B] *)
  ca_peers : e_pk p = pkey B /\ e_pk q = pkey A /\ nth_error (cfg B) i = Some q /\ i < length (s_peers (W B));
  ca_latest : latest A p run tr;
  (* [B] still has the key of the biscuit, and no other session under that id *)
  ca_answer : exists rh run' k, answered cfg tr run' B k (fst (s_init run A p)) q rh /\
    initiator_has tr run A p rh ck /\ s_conf run A p rh = Some (ic, ck) /\
    cs_value (get_bk (nonce_slot (ev P v (w_biscuit ic))) (W B)) = v (NBk B k);
  ca_sid : forall j, idx_get (KSid (ev P v (w_sidr ic))) (s_index (W B)) = Some j -> j = i;
  (* the call *)
  ca_op : c_op c = OMsg rx tx /\ System.valid c (W B);
  ca_rx : first_type rx = Some MInitConf /\ length rx = 176 /\ heard P v cfg B (W B) tr rx (SIC ic) /\
    check_seal P (W B) (Sym.e_alg q) IC_LEN rx = true /\
    idx_get (KKnown (known_hash P (W B) rx)) (s_index (W B)) = None
}.

(** [B] accepts [ic], with the key that [A] has, whatever was delivered before, unless that was [ic] itself. *)
Theorem C110_latest_conf_accepted_partial P v cfg ms W tr A B p q i run ic ck c rx tx :
  correct P -> conf_arrives P v cfg ms W tr A B p q i run ic ck c rx tx ->
  ~ In (B, SIC ic) ms ->
  exists s' m x, exec P c (W B) = (s', Ok (RHandled m)) /\ mr_exchanged m = Some i /\
    nth_error (s_peers (W B)) i = Some x /\
    key_at P s' i (ev P v (s_osk (Sym.e_alg q) ck (s_ds (Sym.e_alg q) (p_ds x)))).
Proof.
  intros OK [C Hy Ln NB [Kp Kq] (Ep & Eq & Nq & Li) La (rh & run' & k & An & [Ic _] & Sc & Bk) Si [Eo Va] (Ft & Lr & He & Se & Kn)] Nd.
  destruct (pe_some (W B) i Li) as [x X]. unfold pe in X.
  destruct (latest_conf_accepted P OK v cfg ms W tr A B p q i x run run' k rh ic ck c rx tx) as (s' & m & E1 & E2 & E3); eauto.
  exists s', m, x. auto.
Qed.
Print Assumptions C110_latest_conf_accepted_partial.

(** Histories have a number of calls. *)
Theorem C110_histories_have_calls P v cfg W tr : history P v cfg W tr <-> exists ms, calls P v cfg ms W tr.
Proof. split; [apply history_calls|intros [ms C]; eapply calls_history; eauto]. Qed.
Print Assumptions C110_histories_have_calls.

From Verif Require Import Demo PNotice.

(** The servers of [Demo] before the RespHello is delivered. *)
Definition ex_W4 := put 1 Demo.B2 (put 0 Demo.A2 (put 1 Demo.B1 (put 0 Demo.A1 ex_servers))).
Lemma ex_pending : exists ms k bno g q rh ck,
  calls Toy.prims ex_v ex_cfg ms ex_W4 [EResp 4 1 k bno g ex_m; EInit 3 0 e1] /\
  length ms = 4 /\ (forall m, ~ In (1, SIC m) ms) /\ (k = 4 \/ k = 0) /\
  s_resp (ex_cfg 1) 4 1 k bno g ex_m = Some (q, rh, ck) /\
  allowed Toy.prims ex_v ex_cfg 0 5 [EResp 4 1 k bno g ex_m; EInit 3 0 e1] Demo.cA3 (SRH rh) Demo.A2.
Proof.
  pose proof (fun n W tr A run c M s' r => calls_go Toy.prims ex_v ex_cfg n W tr A run c M s' r Toy.correct) as Go.
  pose proof ex_cfg_ok as C.
  assert (H0 : calls Toy.prims ex_v ex_cfg [] ex_servers []).
  { apply c_start. intros A. exists 0, 0, (zeros 16), (zeros 16), (zeros 32).
    destruct A as [|A]; cbn [ex_servers]; vm_compute; reflexivity. }
  assert (F0 : forall r, Sym.fresh r []) by (intros r; split; intros; intros []).
  destruct (Go _ _ _ 0 1 Demo.cA1 SNone Demo.A1 (snd Demo.rA1) C H0) as (t1 & X1 & H1 & _).
  { split; [split; [apply Demo.wf_coin|exact Logic.I]|]. split; [apply ex_named; [split; [reflexivity|lia]|vm_compute; reflexivity]|].
    split; [apply F0|]. split; [reflexivity|]. exists (ex_entry 1). split; [reflexivity|]. repeat split; vm_compute; reflexivity. }
  { vm_compute. reflexivity. }
  apply quiet in X1. subst t1.
  destruct (Go _ _ _ 1 2 Demo.cB1 SNone Demo.B1 (snd Demo.rB1) C H1) as (t1 & X1 & H2 & _).
  { split; [split; [apply Demo.wf_coin|exact Logic.I]|]. split; [apply ex_named; [split; [reflexivity|lia]|vm_compute; reflexivity]|].
    split; [apply F0|]. split; [reflexivity|]. exists (ex_entry 0). split; [reflexivity|]. repeat split; vm_compute; reflexivity. }
  { vm_compute. reflexivity. }
  apply quiet in X1. subst t1. clear H0 H1.
  destruct (Go _ _ _ 0 3 Demo.cA2 SNone Demo.A2 (snd Demo.rA2) C H2) as (t1 & X1 & H3 & S3).
  { split; [|split; [apply ex_named; [split; [reflexivity|lia]|vm_compute; reflexivity]|split; [apply F0|reflexivity]]]. Demo.okv. }
  { vm_compute. reflexivity. }
  specialize (S3 Demo.m1 eq_refl).
  assert (t1 = [EInit 3 0 e1]) as ->.
  { destruct X1 as [-> | (e & Ce & ->)].
    - exfalso. destruct S3 as [? ? ? []|? ? ? ? ? ? ? ? ? []|? ? ? ? ? ? []|? ? ? ? ? ? ? []|Ft]. vm_compute in Ft. discriminate Ft.
    - destruct e; cbn [causes] in Ce; repeat match goal with X : _ /\ _ |- _ => destruct X end; try discriminate; try contradiction.
      subst. match goal with X : exists i, _ |- _ => destruct X as (i & Ei & En) end.
      vm_compute in Ei. injection Ei as <-. destruct En as [En _]. injection En as <-. reflexivity. }
  clear X1 S3 H2.
  destruct (Go _ _ _ 1 4 Demo.cB2 (SIH ex_m) Demo.B2 (snd Demo.rB2) C H3) as (t1 & X1 & H4 & S4).
  { split; [|split; [apply ex_named; [split; [reflexivity|lia]|vm_compute; reflexivity]|split; [|]]].
    - Demo.okv.
    - split; intros; intros [X|[]]; discriminate X.
    - apply ex_hello. now left. }
  { vm_compute. reflexivity. }
  specialize (S4 Demo.m2 eq_refl).
  assert (exists k bno g q rh ck, t1 = [EResp 4 1 k bno g ex_m; EInit 3 0 e1] /\ (k = 4 \/ k = 0) /\
    s_resp (ex_cfg 1) 4 1 k bno g ex_m = Some (q, rh, ck) /\ parse_rh (env_payload RH_LEN Demo.m2) = ev_rh Toy.prims ex_v rh)
    as (k & bno & g & q & rh & ck & -> & Ek & Sr & Pr).
  { assert (exists k bno g, In (EResp 4 1 k bno g ex_m) t1 /\ t1 = [EResp 4 1 k bno g ex_m; EInit 3 0 e1] /\ has_key ex_v 1 Demo.B2 k)
      as (k & bno & g & I & Et & Hk).
    { destruct X1 as [-> | (e & Ce & ->)].
      - exfalso. destruct S4 as [? ? ? [X|[]] Ft|? ? ? ? ? ? ? ? ? [X|[]]|? ? ? ? ? ? [X|[]]|? ? ? ? ? ? ? [X|[]]|Ft]; try discriminate X;
          vm_compute in Ft; discriminate Ft.
      - destruct e; cbn [causes] in Ce; repeat match goal with X : _ /\ _ |- _ => destruct X end; try discriminate; try contradiction.
        + match goal with X : exists i, _ |- _ => destruct X as (i & Ei & En) end. discriminate Ei.
        + subst. assert (m = ex_m) as -> by congruence. do 3 eexists. split; [now left|]. split; [reflexivity|assumption]. }
    rewrite Et in S4. destruct S4 as [? ? ? X Ft|r B' k' b' g' m' q rh ck [X|[X|[]]] Sr _ _ Pr|? ? ? ? ? ? [X|[X|[]]]|? ? ? ? ? ? ? [X|[X|[]]]|Ft];
      try discriminate X; try (vm_compute in Ft; discriminate Ft).
    assert (r = 4 /\ B' = 1 /\ k' = k /\ b' = bno /\ g' = g /\ m' = ex_m) as (-> & -> & -> & -> & -> & ->) by (repeat split; congruence).
    exists k, bno, g, q, rh, ck. split; [exact Et|]. split; [|split; [exact Sr|exact Pr]].
    apply (ex_key Demo.B2 k Hk); reflexivity. }
  do 7 eexists. split; [exact H4|]. split; [reflexivity|]. split.
  { intros m I. cbn [In] in I. repeat (destruct I as [I|I]; [discriminate I|]). exact I. }
  split; [exact Ek|]. split; [exact Sr|].
  split; [|split; [apply ex_named; [split; [reflexivity|lia]|vm_compute; reflexivity]|split; [|]]].
    - Demo.okv.
    - split; intros; intros [X|[X|[]]]; discriminate X.
    - unfold heard. cbn [c_op Demo.cA3 Demo.mk]. change (first_type Demo.m2) with (Some MRespHello). cbv iota.
      split; [exact Pr|]. split; [intros t T; eapply k_sent; [left; reflexivity|]; cbn [sent]; rewrite Sr; exact T|].
      eapply ex_resp_ideal; [|exact Sr]. intros r p [X|[X|[]]]; [discriminate X|]. split; congruence.
Qed.

(** The initiator waits for its RespHello, which is about to be delivered. *)
Example C110_pending_example : exists W tr q x h run c M rx,
  cfg_ok ex_cfg /\ history Toy.prims ex_v ex_cfg W tr /\ no_biscuit_key tr /\ nth_error (ex_cfg 0) 0 = Some q /\ keys_in_order tr q /\
  nth_error (s_peers (W 0)) 0 = Some x /\ p_handshake x = Some h /\ hs_next h = ExpRespHello /\
  allowed Toy.prims ex_v ex_cfg 0 run tr c M (W 0) /\ received c = Some rx.
Proof.
  destruct ex_pending as (ms & k & bno & g & q & rh & ck & Hy & _ & _ & _ & _ & Al).
  exists ex_W4. eexists. exists e1. do 2 eexists. exists 5, Demo.cA3, (SRH rh), Demo.m2.
  split; [exact ex_cfg_ok|]. split; [exact (calls_history _ _ _ _ _ _ Hy)|]. split; [intros B j [X|[X|[]]]; discriminate X|].
  split; [reflexivity|]. split; [left; exists 0; split; [reflexivity|intros [X|[X|[]]]; discriminate X]|].
  split; [vm_compute; reflexivity|]. split; [vm_compute; reflexivity|]. split; [vm_compute; reflexivity|]. split; [exact Al|reflexivity].
Qed.

(** The servers of [Demo] before the InitConf is delivered: the conditions of the theorem about it are met. *)
Lemma ex_before : exists ms tr k bno g q rh ck ic ck2,
  calls Toy.prims ex_v ex_cfg ms (put 0 Demo.A3 (put 1 Demo.B2 (put 0 Demo.A2 (put 1 Demo.B1 (put 0 Demo.A1 ex_servers))))) tr /\
  length ms = 5 /\ (forall m, ~ In (1, SIC m) ms) /\
  tr = [EConf 3 0 e1 rh; EResp 4 1 k bno g ex_m; EInit 3 0 e1] /\ (k = 4 \/ k = 0) /\
  s_resp (ex_cfg 1) 4 1 k bno g ex_m = Some (q, rh, ck) /\ s_conf 3 0 e1 rh = Some (ic, ck2) /\
  parse_ic (env_payload IC_LEN Demo.m3) = ev_ic Toy.prims ex_v ic.
Proof.
  pose proof (fun n W tr A run c M s' r => calls_go Toy.prims ex_v ex_cfg n W tr A run c M s' r Toy.correct) as Go.
  pose proof ex_cfg_ok as C.
  destruct ex_pending as (ms & k & bno & g & q & rh & ck & H4 & Lm & Nm & Ek & Sr & Al).
  destruct (Go _ _ _ 0 5 Demo.cA3 (SRH rh) Demo.A3 (snd Demo.rA3) C H4 Al) as (t1 & X1 & H5 & S5).
  { vm_compute. reflexivity. }
  specialize (S5 Demo.m3 eq_refl).
  assert (exists ic ck2, t1 = [EConf 3 0 e1 rh; EResp 4 1 k bno g ex_m; EInit 3 0 e1] /\
    s_conf 3 0 e1 rh = Some (ic, ck2) /\ parse_ic (env_payload IC_LEN Demo.m3) = ev_ic Toy.prims ex_v ic)
    as (ic & ck2 & -> & Sc & Pc).
  { assert (exists r p, t1 = [EConf r 0 p rh; EResp 4 1 k bno g ex_m; EInit 3 0 e1]) as (r & p & Et).
    { destruct X1 as [-> | (e & Ce & ->)].
      - exfalso. destruct S5 as [? ? ? [X|[X|[]]] Ft|? ? ? ? ? ? ? ? ? [X|[X|[]]] ? Ft|? ? ? ? ? ? [X|[X|[]]]|? ? ? ? ? ? ? [X|[X|[]]]|Ft]; try discriminate X;
          vm_compute in Ft; discriminate Ft.
      - destruct e; cbn [causes] in Ce; repeat match goal with X : _ /\ _ |- _ => destruct X end; try discriminate; try contradiction.
        + match goal with X : exists i, _ |- _ => destruct X as (i & Ei & En) end. discriminate Ei.
        + subst. assert (m = rh) as -> by congruence. do 2 eexists. reflexivity. }
    rewrite Et in S5. assert (V : Sym.valid ex_cfg t1).
    { destruct (C95_histories_explained Toy.prims ex_v ex_cfg _ _ (calls_history _ _ _ _ _ _ H5)) as [V _]. exact V. }
    rewrite Et in V. destruct (valid_conf _ _ _ _ _ _ V) as (_ & In0 & _).
    destruct In0 as [X|[X|[]]]; [discriminate X|]. assert (r = 3) as -> by congruence. assert (p = e1) as -> by congruence. clear X.
    destruct S5 as [? ? ? X Ft|? ? ? ? ? ? ? ? ? X ? Ft|r' A' p' m' ic ck2 [X|[X|[X|[]]]] Sc _ _ Pc|? ? ? ? ? ? ? [X|[X|[X|[]]]]|Ft];
      try discriminate X; try (vm_compute in Ft; discriminate Ft).
    assert (r' = 3 /\ A' = 0 /\ p' = e1 /\ m' = rh) as (-> & -> & -> & ->) by (repeat split; congruence).
    exists ic, ck2. auto. }

  do 10 eexists. split; [exact H5|]. split; [cbn [length]; now rewrite Lm|]. split; [intros m [X|X]; [discriminate X|exact (Nm m X)]|].
  split; [reflexivity|]. split; [exact Ek|]. split; [exact Sr|]. split; [exact Sc|exact Pc].
Qed.

Lemma ex_k4 k bno g q rh ck ic ck2 :
  s_resp (ex_cfg 1) 4 1 k bno g ex_m = Some (q, rh, ck) -> s_conf 3 0 e1 rh = Some (ic, ck2) -> k = 4 \/ k = 0 ->
  ev Toy.prims ex_v (w_biscuit ic) = ex_biscuit -> k = 4.
Proof.
  intros S S2 K Eb. destruct (ex_resp _ _ _ _ _ _ S) as (-> & Z1 & Z2 & Z3 & _).
  destruct (conf_spec _ _ _ _ _ _ S2) as (pt' & Y1 & Y2 & Y3 & Y4 & Y5 & Y6 & _).
  assert (B1 : w_biscuit ic = Aead true (Nm (NBk 1 k)) (Nm (NNonce 4)) (ex_ad Shake)
      (Pair (s_pid Shake (pkey 0)) (Pair (Lit bno) ck))).
  { rewrite Y5, Z3, Z1, Z2. reflexivity. }
  assert (O : xdec Toy.prims (ex_v (NBk 1 k)) (ev Toy.prims ex_v (ex_ad Shake)) ex_biscuit =
    Some (ev Toy.prims ex_v (s_pid Shake (pkey 0)) ++ bno ++ ev Toy.prims ex_v ck)).
  { rewrite <- Eb, B1. cbn [ev]. rewrite toy_open by reflexivity. reflexivity. }
  destruct K as [-> | ->]; [reflexivity|].
  exfalso. revert O. generalize (ev Toy.prims ex_v (s_pid Shake (pkey 0)) ++ bno ++ ev Toy.prims ex_v ck).
  intros l O. vm_compute in O. discriminate O.
Qed.

Definition cCopy := Demo.mk (secs 4) xdd (OMsg bad3 Demo.tx).
Lemma ex_arrives : exists ms tr ic ck,
  let W := put 0 Demo.A3 (put 1 Demo.B2 (put 0 Demo.A2 (put 1 Demo.B1 (put 0 Demo.A1 ex_servers)))) in
  conf_arrives Toy.prims ex_v ex_cfg ms W tr 0 1 e1 e0 0 3 ic ck Demo.cB3 Demo.m3 Demo.tx /\
  length ms = 5 /\ (forall m, ~ In (1, SIC m) ms) /\
  allowed Toy.prims ex_v ex_cfg 1 6 tr cCopy (SIC ic) (W 1) /\
  allowed Toy.prims ex_v ex_cfg 1 6 tr Demo.cB3 (SIC ic) (W 1).
Proof.
  destruct ex_before as (ms & tr & k & bno & g & q & rh & ck & ic & ck2 & Hy & L & Nm & Et & Ek & Sr & Sc & Pc).
  assert (ev Toy.prims ex_v (w_biscuit ic) = ex_biscuit) as Eb.
  { change (ic_biscuit (ev_ic Toy.prims ex_v ic) = ex_biscuit). rewrite <- Pc. vm_compute. reflexivity. }
  pose proof (ex_k4 _ _ _ _ _ _ _ _ Sr Sc Ek Eb) as ->.
  assert (q = e0) as ->.
  { destruct (resp_spec _ _ _ _ _ _ _ _ _ _ Sr) as (pt & _ & F & _). exact (ex_find _ _ F). }
  assert (R : forall n, ~ revealed tr n).
  { intros n X. unfold revealed in X. rewrite Et in X. destruct X as [X|[X|[X|[]]]]; discriminate X. }
  assert (He : heard Toy.prims ex_v ex_cfg 1 Demo.B2 tr Demo.m3 (SIC ic)).
  { unfold heard. change (first_type Demo.m3) with (Some MInitConf). cbv iota.
    split; [exact Pc|]. split; [intros t T; eapply k_sent; [rewrite Et; left; reflexivity|]; cbn [sent]; rewrite Sc; exact T|].
    eapply ex_conf_ideal; [exact Sr|exact Sc|now left|exact Eb]. }
  assert (Fr : fresh 6 tr).
  { rewrite Et. split; intros; intros [X|[X|[X|[]]]]; discriminate X. }
  exists ms, tr, ic, ck2. intros W. split; [|split; [exact L|split; [exact Nm|split]]].
  - constructor.
    + exact ex_cfg_ok.
    + exact Hy.
    + rewrite L. reflexivity.
    + intros B j. apply R.
    + split; left; exists 0; split; [reflexivity|apply R|reflexivity|apply R].
    + repeat split. vm_compute. lia.
    + exists [EConf 3 0 e1 rh; EResp 4 1 4 bno g ex_m], []. split; [exact Et|]. intros r [X|[X|[]]]; discriminate X.
    + exists rh, 4, 4. split; [|split; [|split; [exact Sc|]]].
      * exists bno, g, ck. split; [rewrite Et; right; left; reflexivity|exact Sr].
      * split; [rewrite Et; now left|]. exists ic. exact Sc.
      * rewrite Eb. vm_compute. reflexivity.
    + intros j. assert (w_sidr ic = z_sidr rh /\ z_sidr rh = Sym.Nm (NSid 4)) as [-> ->].
      { destruct (conf_spec _ _ _ _ _ _ Sc) as (pt' & Y1 & Y2 & Y3 & Y4 & _). destruct (ex_resp _ _ _ _ _ _ Sr) as (_ & _ & Z & _). auto. }
      vm_compute. congruence.
    + split; [reflexivity|]. Demo.okv.
    + split; [reflexivity|]. split; [reflexivity|]. split; [exact He|]. split; vm_compute; reflexivity.
  - split; [Demo.okv|]. split; [apply ex_named; [split; [reflexivity|lia]|vm_compute; reflexivity]|]. split; [exact Fr|].
    cbn [c_op cCopy Demo.mk]. unfold heard in *. change (first_type Demo.m3) with (Some MInitConf) in He.
    change (first_type bad3) with (Some MInitConf). cbv iota in *. destruct He as (H1 & H2). split; [|exact H2].
    rewrite <- H1. vm_compute. reflexivity.
  - split; [Demo.okv|]. split; [apply ex_named; [split; [reflexivity|lia]|vm_compute; reflexivity]|]. split; [exact Fr|]. exact He.
Qed.

(** The conditions can be met. *)
Example C110_example : exists ms W tr ic ck c rx tx,
  conf_arrives Toy.prims ex_v ex_cfg ms W tr 0 1 e1 e0 0 3 ic ck c rx tx /\ ~ In (1, SIC ic) ms /\ 0 < length ms.
Proof.
  destruct ex_arrives as (ms & tr & ic & ck & Ca & L & Nm & _). do 8 eexists. split; [exact Ca|]. split; [apply Nm|lia].
Qed.

(** And the condition that [ic] was not delivered cannot be dropped: a copy of it whose mac was damaged on the way is refused, and
    after that the genuine one is refused too. *)
Theorem C110_damaged_copy_refuted : exists ms W tr ic ck c rx tx c1 rx1 tr1 s1 e1' e2,
  (* as above *)
  conf_arrives Toy.prims ex_v ex_cfg ms W tr 0 1 e1 e0 0 3 ic ck c rx tx /\ ~ In (1, SIC ic) ms /\
  (* the copy is delivered and refused, and the servers go on *)
  received c1 = Some rx1 /\ firstn 144 rx1 = firstn 144 rx /\ rx1 <> rx /\ check_seal Toy.prims (W 1) (Sym.e_alg e0) IC_LEN rx1 = false /\
  exec Toy.prims c1 (W 1) = (s1, Err e1') /\
  calls Toy.prims ex_v ex_cfg ((1, SIC ic) :: ms) (put 1 s1 W) tr1 /\
  (* the genuine one is refused *)
  snd (exec Toy.prims c s1) = Err e2.
Proof.
  destruct ex_arrives as (ms & tr & ic & ck & Ca & L & Nm & Al & _). cbv zeta in *.
  set (W := put 0 Demo.A3 (put 1 Demo.B2 (put 0 Demo.A2 (put 1 Demo.B1 (put 0 Demo.A1 ex_servers))))) in *.
  assert (E : exec Toy.prims cCopy (W 1) = (fst (exec Toy.prims cCopy Demo.B2), Err ESeal)) by (vm_compute; reflexivity).
  destruct (calls_go _ _ _ _ _ _ _ _ _ _ _ _ Toy.correct ex_cfg_ok (ca_calls _ _ _ _ _ _ _ _ _ _ _ _ _ _ _ _ _ Ca) Al E) as (tr1 & _ & Hy & _).
  exists ms, W, tr, ic, ck, Demo.cB3, Demo.m3, Demo.tx, cCopy, bad3, tr1. do 3 eexists. split; [exact Ca|]. split; [apply Nm|]. split; [reflexivity|]. split; [vm_compute; reflexivity|].
  split; [vm_compute; discriminate|]. split; [vm_compute; reflexivity|]. split; [exact E|]. split; [exact Hy|].
  vm_compute. reflexivity.
Qed.
Print Assumptions C110_damaged_copy_refuted.
