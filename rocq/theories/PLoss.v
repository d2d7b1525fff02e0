(** C106: lost messages delay a handshake and do not change its outcome. *)
From Verif Require Import Base ConstTime PConstTime Prims HashDomains Wire Server Protocol Wp Inv Rules Calls PollRules System Trans Spec Transcript Demo PSafety PReplay PNotice Forward PRetransmit PCookie PWire PHandshake.
Local Open Scope list_scope.

(** * What may arrive instead of a message that got lost *)

(** [m'] is the message [m] the server handed out for [p] when it came to the state [s], or what
    [retransmit_handshake] hands out for [p] later, before any newer message for [p]. *)
Definition sent_again (P : prims) (s : srv) (p : nat) (m m' : bytes) : Prop :=
  m' = m \/
  exists h s1 c tx s2, run P s h s1 /\ last_sent p h = None /\
    valid c s1 /\ c_op c = ORetransmit p tx /\ exec P c s1 = (s2, Ok (RSent m')).

(** [m4'] is the reply [m4] of the server to an InitConf it accepted from [p] at the time [t], or its
    reply to the same InitConf [m3] coming later, in a history [keeps_entry] allows (C04): it accepts no
    other InitConf from [p], and it is not polled more than 120 seconds after [t]. *)
Definition answered_again (P : prims) (t : time) (s : srv) (p : nat) (m3 m4 m4' : bytes) : Prop :=
  m4' = m4 \/
  exists h s1 c s2 o, run_if P (keeps_entry P t p) s h s1 /\
    valid c s1 /\ received c = Some m3 /\
    exec P c s1 = (s2, Ok (RHandled {| mr_exchanged := o; mr_resp := Some m4' |})).

(** * Receivers treat both alike *)

(** Same length, at least an envelope, and the same bytes except for the cookie field. *)
Definition alike (m m' : bytes) : Prop :=
  m' = m \/
  36 <= length m /\ length m' = length m /\ firstn (length m - 16) m' = firstn (length m - 16) m /\
  ~ is_type x86 m.

Definition with_op (c : call) (o : op) : call :=
  {| c_now := c_now c; c_coins := c_coins c; c_op := o |}.

Lemma alike_exec P c m m' tx s : alike m m' -> c_op c = OMsg m' tx ->
  exec P c s = exec P (with_op c (OMsg m tx)) s.
Proof.
  intros A O. destruct c as [now cn o]. cbn [c_op] in O. subst o. unfold with_op. cbn [c_now c_coins].
  destruct A as [->|(Bg & L & E & N)]; [reflexivity|]. now apply C26_cookie_field_ignored.
Qed.

Lemma with_op_valid c m m' tx s : c_op c = OMsg m' tx -> valid c s -> valid (with_op c (OMsg m tx)) s.
Proof. intros O [W T]. split; [exact W|]. cbn [with_op c_op]. now rewrite O in T. Qed.

Lemma last_sent_app p h1 h2 acc :
  last_sent_from p acc (h1 ++ h2) = last_sent_from p (last_sent_from p acc h1) h2.
Proof. revert acc. induction h1 as [|[c r] h1 IH]; intros acc; [reflexivity|]. cbn [app last_sent_from]. apply IH. Qed.

Lemma last_sent_none p h acc : last_sent p h = None -> last_sent_from p acc h = acc.
Proof.
  unfold last_sent. enough (forall acc', (last_sent_from p acc' h = None -> acc' = None) /\
    (last_sent_from p None h = None -> last_sent_from p acc h = acc)) as K
    by (intros E; now apply (proj2 (K None))).
  revert acc. induction h as [|[c r] h IH]; intros acc acc'; cbn [last_sent_from]; [auto|].
  destruct (sends p c r) as [m|].
  - split; intros E; pose proof (proj1 (IH acc (Some m)) E); discriminate.
  - split; intros E; [now apply (proj1 (IH acc acc'))|]. now apply (proj2 (IH acc acc')).
Qed.

(** A retransmission is the message again, except perhaps for the cookie field, and an InitConf is the
    same in all bytes. *)
Lemma sent_again_alike P s c s1 r p m m' :
  reachable P s -> valid c s -> exec P c s = (s1, r) -> sends p c r = Some m -> sent_again P s1 p m m' ->
  alike m m' /\ (is_type x83 m -> m' = m).
Proof.
  intros (s0 & h0 & I0 & R0) V E Sd [->|(h & sr & cr & tx & s2 & Rn & Ln & Vr & Or & Er)].
  { split; [now left|auto]. }
  assert (run P s0 (h0 ++ (c, r) :: h) sr) as Ra.
  { eapply run_app; [exact R0|]. econstructor; eauto. }
  destruct (C48_retransmission_repeats P s0 _ sr cr p tx s2 _ I0 Ra Vr Or Er) as (_ & K).
  unfold last_sent in K. rewrite last_sent_app in K. cbn [last_sent_from] in K. rewrite Sd in K.
  rewrite (last_sent_none p h _ Ln) in K.
  destruct K as [(n & En & K)|(x & _ & _ & e & Ee)]; [|discriminate].
  assert (n = m) as -> by congruence.
  destruct K as [(Ty & L & Ek)|(Ty & L & k & Lk & Ek)].
  - assert (m' = m) as -> by congruence. split; [now left|auto].
  - assert (m' = firstn 1044 m ++ k) as -> by congruence. split.
    + right. split; [lia|]. rewrite L. change (1060 - 16) with 1044.
      assert (length (firstn 1044 m) = 1044) as L1 by (rewrite firstn_length; lia).
      split; [rewrite app_length, L1, Lk; reflexivity|]. split.
      * rewrite firstn_app, L1, Nat.sub_diag, firstn_O, app_nil_r, firstn_firstn. reflexivity.
      * unfold is_type in *. congruence.
    + intros T3. unfold is_type in *. congruence.
Qed.

(** * C106 *)

(** As C01, on a network that loses messages.  What B gets as InitHello and as InitConf may be
    any retransmission of the one A sent first; what A gets as EmptyData may be the answer of B to a
    retransmission of an InitConf B has accepted before, so that the first answer was lost.  B may have
    answered earlier copies of the InitHello whose RespHello was lost: its state is any reachable one.
    The handshake ends as if nothing had been lost: both sides have the same key, and A stops
    retransmitting. *)
Theorem C106_lost_messages : forall P sA sB pA pB
    cA1 txA1 sA1 r1 m1'  cB1 txB1 sB1 r2  hA sA2 cA2 txA2 sA3 r3 m3'
    hB sB2 cB2 txB2 sB3 r4 m3'' m4'  hA' sA4 cA3 txA3 sA5 r5,
  correct P -> reachable P sA -> reachable P sB -> genuine P sA -> genuine P sB ->
  configured sA pA sB pB ->
  (* A initiates, with a session id that is not in use *)
  valid cA1 sA -> c_op cA1 = OInitiate pA txA1 -> exec P cA1 sA = (sA1, r1) ->
  sid_unused sA (c_sid (c_coins cA1)) ->
  (* B gets the InitHello or a retransmission *)
  sent_again P sA1 pA (message r1) m1' ->
  valid cB1 sB -> c_op cB1 = OMsg m1' txB1 -> exec P cB1 sB = (sB1, r2) ->
  (version sB pB Blake -> forall pid pk psk, ~ hello_authentic P sB Shake (message r1) pid pk psk) ->
  (* A gets the RespHello while the handshake is pending *)
  run P sA1 hA sA2 -> still_pending sA1 sA2 pA ->
  valid cA2 sA2 -> c_op cA2 = OMsg (message r2) txA2 -> exec P cA2 sA2 = (sA3, r3) ->
  (* B gets the InitConf or a retransmission, while it has the biscuit key and has not used the biscuit
     or a later one *)
  sent_again P sA3 pA (message r3) m3' ->
  run P sB1 hB sB2 ->
  named_key sB2 (resp_biscuit (message r2)) = named_key sB1 (resp_biscuit (message r2)) ->
  (last_used sB2 pB < le_dec (s_bctr sB))%N ->
  (forall q, idx_get (KSid (c_sid (c_coins cB1))) (s_index sB2) = Some q -> q = pB) ->
  idx_get (KKnown (known_hash P sB2 (message r3))) (s_index sB2) = None ->
  (version sB pB Blake -> forall pt, ~ biscuit_opens P Shake (s_spkm sB2)
     (named_key sB2 (resp_biscuit (message r2))) (conf_sidi (message r3)) (conf_sidr (message r3))
     (resp_biscuit (message r2)) pt) ->
  valid cB2 sB2 -> c_op cB2 = OMsg m3' txB2 -> exec P cB2 sB2 = (sB3, r4) -> (0 <= c_now cB2)%Z ->
  (* A gets the EmptyData, or the answer of B to a later retransmission *)
  sent_again P sA3 pA (message r3) m3'' ->
  answered_again P (c_now cB2) sB3 pB m3'' (message r4) m4' ->
  run P sA3 hA' sA4 -> still_pending sA3 sA4 pA -> same_session sA3 sA4 pA ->
  valid cA3 sA4 -> c_op cA3 = OMsg m4' txA3 -> exec P cA3 sA4 = (sA5, r5) ->
  (exists m1 m2 m3 m4,
     r1 = Ok (RSent m1) /\
     r2 = Ok (RHandled {| mr_exchanged := None; mr_resp := Some m2 |}) /\
     r3 = Ok (RHandled {| mr_exchanged := Some pA; mr_resp := Some m3 |}) /\
     r4 = Ok (RHandled {| mr_exchanged := Some pB; mr_resp := Some m4 |}) /\
     r5 = Ok (RHandled {| mr_exchanged := None; mr_resp := None |}) /\
     is_type x81 m1 /\ is_type x82 m2 /\ is_type x83 m3 /\ is_type x84 m4 /\ is_type x84 m4') /\
  (exists k, key_at P sA3 pA k /\ key_at P sB3 pB k /\ key_at P sA5 pA k) /\
  (forall c tx, valid c sA5 -> c_op c = ORetransmit pA tx -> exec P c sA5 = (sA5, Err ENoHandshake)).
Proof.
  intros P sA sB pA pB cA1 txA1 sA1 r1 m1' cB1 txB1 sB1 r2 hA sA2 cA2 txA2 sA3 r3 m3'
    hB sB2 cB2 txB2 sB3 r4 m3'' m4' hA' sA4 cA3 txA3 sA5 r5
    C RA RB GA GB Cf V1 O1 E1 U1 S1 V2 O2 E2 N2 Rn1 SP1 V3 O3 E3 S3 Rn2 NK LU SI KH N4 V4 O4 E4 T4
    S3' An Rn3 SP2 SS V5 O5 E5.
  pose proof Cf as (xA & xB & XA & _).
  destruct (initiated P sA cA1 pA txA1 xA sA1 r1 (reachable_inv P _ RA) V1 O1 E1 XA U1) as (Er1 & _ & _).
  assert (alike (message r1) m1') as A1.
  { refine (proj1 (sent_again_alike P sA cA1 sA1 r1 pA (message r1) m1' RA V1 E1 _ S1)).
    unfold sends. rewrite O1, Er1. cbn [message]. now rewrite Nat.eqb_refl. }
  rewrite (alike_exec P cB1 _ _ txB1 sB A1 O2) in E2.
  pose proof (with_op_valid cB1 (message r1) m1' txB1 sB O2 V2) as V2'.
  assert (reachable P sA2) as RA2.
  { destruct RA as (s0 & h0 & I0 & R0). eexists s0, _. split; [exact I0|].
    eapply run_app; [exact R0|]. econstructor; eauto. }
  (* if B gets the InitConf as A sent it, and A the answer to it *)
  assert (exists sB3' r4', exec P (with_op cB2 (OMsg (message r3) txB2)) sB2 = (sB3', r4')) as (sB3' & r4' & F4)
    by (eexists _, _; apply surjective_pairing).
  assert (exists sA5' r5', exec P (with_op cA3 (OMsg (message r4') txA3)) sA4 = (sA5', r5')) as (sA5' & r5' & F5)
    by (eexists _, _; apply surjective_pairing).
  pose proof (with_op_valid cB2 (message r3) m3' txB2 sB2 O4 V4) as V4'.
  pose proof (with_op_valid cA3 (message r4') m4' txA3 sA4 O5 V5) as V5'.
  destruct (C01_honest_handshake P sA sB pA pB cA1 txA1 sA1 r1 (with_op cB1 (OMsg (message r1) txB1)) txB1
      sB1 r2 hA sA2 cA2 txA2 sA3 r3 hB sB2 (with_op cB2 (OMsg (message r3) txB2)) txB2 sB3' r4' hA' sA4
      (with_op cA3 (OMsg (message r4') txA3)) txA3 sA5' r5') as ((m1 & m2 & m3 & m4 & Q1 & Q2 & Q3 & Q4 & Q5 & T1 & T2 & T3 & T4') & Ks & Re);
    auto.
  (* what arrived instead of the InitConf is the same message *)
  assert (forall m, sent_again P sA3 pA (message r3) m -> m = message r3) as Same.
  { intros m Sm. refine (proj2 (sent_again_alike P sA2 cA2 sA3 r3 pA (message r3) m RA2 V3 E3 _ Sm) _).
    - unfold sends. rewrite O3, Q3. cbn [message]. rewrite Nat.eqb_refl.
      unfold is_type in T3. destruct m3 as [|b m3]; [discriminate|]. cbn in T3. injection T3 as ->. reflexivity.
    - rewrite Q3. exact T3. }
  rewrite (Same m3' S3) in O4. rewrite (Same m3'' S3') in An.
  assert (exec P cB2 sB2 = exec P (with_op cB2 (OMsg (message r3) txB2)) sB2) as F4'.
  { apply alike_exec with (m' := message r3); [now left|exact O4]. }
  rewrite F4', F4 in E4. assert (sB3' = sB3) as -> by congruence. assert (r4' = r4) as -> by congruence. clear E4.
  (* what arrived instead of the EmptyData is the same except for the cookie field *)
  assert (alike (message r4) m4' /\ is_type x84 m4') as [A4 T4''].
  { destruct An as [->|(h & s1 & c & s2 & o & Rk & Vc & Rc & Ec)].
    { split; [now left|]. rewrite Q4. exact T4'. }
    assert (reachable P sB2) as (s0 & h0 & I0 & R0).
    { destruct RB as (s0 & h0 & I0 & R0). eexists s0, _. split; [exact I0|].
      eapply run_app; [exact R0|]. econstructor; eauto. }
    assert (well_sized m3) as Z3.
    { destruct RA2 as (a0 & g0 & J0 & G0). eapply (C25_sent_messages_well_sized P a0 g0 sA2 cA2 sA3 r3 m3); eauto.
      rewrite Q3. right. eexists. reflexivity. }
    assert (well_sized m4) as Z4.
    { eapply (C25_sent_messages_well_sized P s0 h0 sB2 _ sB3 r4 m4); [exact I0|exact R0|exact V4'|exact F4|].
      rewrite Q4. right. eexists. reflexivity. }
    assert (length m3 = 176) as L3.
    { destruct Z3 as (b & n & Tb & Db & Lb). unfold is_type in Tb, T3. assert (b = x83) as -> by congruence.
      cbn in Db. congruence. }
    assert (length m4 = 64) as L4.
    { destruct Z4 as (b & n & Tb & Db & Lb). unfold is_type in Tb, T4'. assert (b = x84) as -> by congruence.
      cbn in Db. congruence. }
    rewrite Q3 in Rc. cbn [message] in Rc.
    destruct (C04_retransmitted_conf_answered P s0 h0 sB2 (with_op cB2 (OMsg (message r3) txB2)) m3 sB3 r4 pB m4
                h s1 c m3) as (m2' & Ea & La & Pa & Ta); auto.
    - rewrite Q3. reflexivity.
    - exists (Some m4). exact Q4.
    - exists (Some pB). exact Q4.
    - assert (m2' = m4') as -> by congruence. split; [|exact Ta].
      right. rewrite Q4. cbn [message]. rewrite L4, La. split; [lia|]. split; [reflexivity|].
      split; [exact Pa|]. unfold is_type in *. congruence. }
  rewrite (alike_exec P cA3 _ _ txA3 sA4 A4 O5), F5 in E5.
  assert (sA5' = sA5) as -> by congruence. assert (r5' = r5) as -> by congruence.
  split; [|split; [exact Ks|exact Re]].
  exists m1, m2, m3, m4. repeat (split; [assumption|]). assumption.
Qed.
Print Assumptions C106_lost_messages.

(** Every message lost once: A retransmits its InitHello, B answers twice because the first RespHello is
    lost, A retransmits its InitConf, and B answers that twice too. *)
Module Lossy.
Import Demo.
Definition cAr := mk (secs 2) x11 (ORetransmit 0 tx).
Definition m1' := Eval vm_compute in sent (snd (exec P cAr A2)).
Definition cBx := mk (secs 3) x12 (OMsg m1' tx).
Definition Bx := Eval vm_compute in fst (exec P cBx B1).
Definition cBy := mk (secs 4) x13 (OMsg m1' tx).
Definition By := Eval vm_compute in fst (exec P cBy Bx).
Definition n2 := Eval vm_compute in sent (snd (exec P cBy Bx)).
Definition cAy := mk (secs 5) x14 (OMsg n2 tx).
Definition Ay := Eval vm_compute in fst (exec P cAy A2).
Definition n3 := Eval vm_compute in sent (snd (exec P cAy A2)).
Definition cAz := mk (secs 6) x15 (ORetransmit 0 tx).
Definition n3' := Eval vm_compute in sent (snd (exec P cAz Ay)).
Definition cBz := mk (secs 7) x16 (OMsg n3' tx).
Definition Bz := Eval vm_compute in fst (exec P cBz By).
Definition n4 := Eval vm_compute in sent (snd (exec P cBz By)).
Definition cBw := mk (secs 8) x17 (OMsg n3' tx).
Definition n4' := Eval vm_compute in sent (snd (exec P cBw Bz)).
Definition cAw := mk (secs 9) x18 (OMsg n4' tx).
Definition Aw := Eval vm_compute in fst (exec P cAw Ay).
End Lossy.

Example C106_case :
  sent_again Demo.P Demo.A2 0 Demo.m1 Lossy.m1' /\
  sent_again Demo.P Lossy.Ay 0 Lossy.n3 Lossy.n3' /\
  answered_again Demo.P (secs 7) Lossy.Bz 0 Lossy.n3' Lossy.n4 Lossy.n4' /\
  reachable Demo.P Lossy.Bx /\ valid Lossy.cBy Lossy.Bx /\ still_pending Demo.A2 Demo.A2 0 /\
  (last_used Lossy.By 0 < le_dec (s_bctr Lossy.Bx))%N /\
  idx_get (KSid (c_sid (c_coins Lossy.cBy))) (s_index Lossy.By) = None /\
  idx_get (KKnown (known_hash Demo.P Lossy.By Lossy.n3)) (s_index Lossy.By) = None /\
  still_pending Lossy.Ay Lossy.Ay 0 /\
  exec Demo.P Lossy.cAw Lossy.Ay = (Lossy.Aw, Ok (RHandled {| mr_exchanged := None; mr_resp := None |})) /\
  (exists k, key_at Demo.P Lossy.Ay 0 k /\ key_at Demo.P Lossy.Bz 0 k /\ key_at Demo.P Lossy.Aw 0 k /\ length k = 32).
Proof.
  split. { right. exists [], Demo.A2, Lossy.cAr, Demo.tx, Demo.A2. split; [constructor|]. split; [reflexivity|].
    split; [Demo.okv|]. split; [reflexivity|]. vm_compute. reflexivity. }
  split. { right. exists [], Lossy.Ay, Lossy.cAz, Demo.tx, Lossy.Ay. split; [constructor|]. split; [reflexivity|].
    split; [Demo.okv|]. split; [reflexivity|]. vm_compute. reflexivity. }
  split. { right. exists [], Lossy.Bz, Lossy.cBw, Lossy.Bz, None. split; [constructor|].
    split; [Demo.okv|]. split; [reflexivity|]. vm_compute. reflexivity. }
  split. { destruct reachB1 as (s0 & h0 & I0 & R0). eexists s0, _. split; [exact I0|].
    eapply run_app; [exact R0|]. apply (Demo.step Demo.B1 Lossy.cBx (exec Demo.P Lossy.cBx Demo.B1));
      [Demo.okv|reflexivity|]. replace (fst (exec Demo.P Lossy.cBx Demo.B1)) with Lossy.Bx by (vm_compute; reflexivity). constructor. }
  split; [Demo.okv|].
  split. { eapply still_pending_self; [reflexivity|reflexivity|vm_compute; reflexivity]. }
  split; [vm_compute; reflexivity|]. split; [vm_compute; reflexivity|]. split; [vm_compute; reflexivity|].
  split. { eapply still_pending_self; [reflexivity|reflexivity|vm_compute; reflexivity]. }
  split; [vm_compute; reflexivity|].
  eexists. split; [|split; [|split]].
  - eapply osk_of; reflexivity.
  - intros c V Eo. erewrite (osk_of Demo.P Lossy.Bz 0); [|reflexivity|reflexivity|exact V|exact Eo].
    vm_compute. reflexivity.
  - intros c V Eo. erewrite (osk_of Demo.P Lossy.Aw 0); [|reflexivity|reflexivity|exact V|exact Eo].
    vm_compute. reflexivity.
  - apply hmix_len.
Qed.
