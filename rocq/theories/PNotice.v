(** C08, C09, C22, C23, C46: what rejected messages change, when output keys change, and with
    which hash function peers are served. *)
From Verif Require Import Base ConstTime Prims HashDomains Wire Server Protocol Wp Inv Rules Calls PollRules System Trans Spec Transcript Demo PReplay PPoll.
From Coq Require Strings.String.
Import (notations) Coq.Strings.String.

(** * One peer record under one message *)

Section Steps.
Context (P : prims).

(** What a message [rx] with result [r] can do to the record [x] of peer [p]. *)
Inductive pchange (s : srv) (rx : bytes) (p : nat) (x : peer) : peer -> res err msg_result -> Prop :=
| pc_same r : pchange s rx p x x r
| pc_counter u n e : is_type x84 rx -> p_session x = Some u ->
    pchange s rx p x (set_session (Some (set_txnt n u)) x) (Err e)
| pc_ack u n : is_type x84 rx -> p_session x = Some u ->
    pchange s rx p x (set_handshake None (set_session (Some (set_txnt n u)) x))
      (Ok (handled None None))
| pc_cookie_rej h st e : is_type x86 rx -> p_handshake x = Some h ->
    pchange s rx p x (set_handshake (Some (set_hs_cookie st h)) x) (Err e)
| pc_cookie h h' : is_type x86 rx -> p_handshake x = Some h ->
    pchange s rx p x (set_handshake (Some h') x) (Ok (handled None None))
| pc_resp x' e : is_type x82 rx -> resp_authentic P s x rx -> pchange s rx p x x' (Err e)
| pc_resp_ok x' m : is_type x82 rx -> resp_authentic P s x rx ->
    pchange s rx p x x' (Ok (handled (Some p) m))
| pc_conf x' r : is_type x83 rx -> conf_authentic P s x rx -> pchange s rx p x x' r.

Lemma rest_authentic s s' x rx : rest s' = rest s -> conf_authentic P s' x rx -> conf_authentic P s x rx.
Proof.
  intros R. unfold conf_authentic. rewrite (rest_key _ _ _ R), (rest_pk _ _ R). auto.
Qed.

(** A failed attempt leaves a record alone unless the message authenticates the peer. *)
Lemma ic_failed_pe s rx a s' p x : inv P s -> length rx = 176 ->
  ic_failed P s (parse_ic (env_payload IC_LEN rx)) a s' -> pe s p = Some x ->
  pe s' p = Some x \/ conf_authentic P s x rx.
Proof.
  intros I L [[-> _]|(q & y & bno & core & q' & HA & _ & _ & R)] X; auto.
  destruct (ic_accept_authentic P s rx a q y bno core I L HA) as [Au Y].
  rewrite (sr_pe _ _ _ _ _ R). destruct (Nat.eqb_spec q p) as [->|_]; [|now left].
  right. rewrite X in Y. now injection Y as ->.
Qed.

Lemma msg_peer now c rx tx s s' r p x : inv P s -> msgstep P now c rx tx s s' r -> pe s p = Some x ->
  exists x', pe s' p = Some x' /\ pchange s rx p x x' r.
Proof.
  intros I M X.
  assert (forall s1 q y' f, st_rel s s1 q y' f -> q <> p -> pe s1 p = Some x) as Oth.
  { intros s1 q y' f R N. rewrite (sr_pe _ _ _ _ _ R).
    destruct (Nat.eqb_spec q p); [contradiction|exact X]. }
  destruct M as [e|q y ck a e FT L T|q y ck FT L T CS
    |q y h ic core s1 FT L Hi Hp Hh Hs Hn Hc CS R
    |q y h ic core s1 FT L Hi Hp Hh Hs Hn Hc CS R
    |q y k' FT L EK Hp Hk Hm CS
    |e s1 s2 FT L EK F1 F2 K1 K2
    |s0 a q y bno core s1 e FT L EK HA K0 K1 HI SF R
    |s0 q y bno core s1 s2 FT L EK HA K0 K1 HI SF R CS R2
    |q y h u FT L Hi Hp Hh Hs Hn Hu CS Ht D
    |q y h u s1 pt FT L Hi Hp Hh Hs Hn Hu CS Ht D R
    |q y h mac v FT L Hi Hp Hd Hh Hm D
    |q y h mac v FT L Hi Hp Hd Hh Hm D]; try (apply is_type_of in FT; cbn [mt_code] in FT).
  - exists x. split; auto. constructor.
  - exists x. split; [|constructor]. destruct (after_biscuit_frame now c s) as (_&_&_&E&_).
    unfold pe in *. now rewrite E.
  - exists x. split; [|constructor]. destruct (after_biscuit_frame now c s) as (_&_&_&E&_).
    unfold pe in *. now rewrite E.
  - destruct (Nat.eq_dec q p) as [->|N]; [|exists x; split; [eauto|constructor]].
    assert (y = x) as -> by congruence.
    eexists. split; [eapply st_rel_self; eauto|]. apply pc_resp; auto.
    eapply rh_compute_authentic; eauto.
  - destruct (Nat.eq_dec q p) as [->|N]; [|exists x; split; [eauto|constructor]].
    assert (y = x) as -> by congruence.
    eexists. split; [eapply st_rel_self; eauto|]. apply pc_resp_ok; auto.
    eapply rh_compute_authentic; eauto.
  - exists x. split; auto. constructor.
  - pose proof (g_inv _ _ _ (proj1 K1)) as I1.
    destruct (ic_failed_pe s rx Shake s1 p x I L F1 X) as [X1|Au].
    + destruct (ic_failed_pe s1 rx Blake s2 p x I1 L F2 X1) as [X2|Au].
      * exists x. split; auto. constructor.
      * destruct (ev_pe _ _ (g_evo _ _ _ (proj1 K2)) p x X) as (x' & X' & _).
        exists x'. split; auto. apply pc_conf; auto. eapply rest_authentic; [|exact Au].
        eapply ic_failed_rest; eauto.
    + destruct (ev_pe _ _ (g_evo _ _ _ (proj1 K2)) p x X) as (x' & X' & _).
      exists x'. split; auto. apply pc_conf; auto.
  - assert (exists x', pe s1 p = Some x') as (x' & X').
    { destruct (ev_pe _ _ (g_evo _ _ _ (proj1 K1)) p x X) as (x' & X' & _). eauto. }
    exists x'. split; auto.
    assert (pe s0 p = Some x \/ conf_authentic P s x rx) as [X0|Au]; [| |now apply pc_conf].
    { destruct HA as [[_ ->]|[_ F]]; auto. eapply ic_failed_pe; eauto. }
    destruct (Nat.eq_dec q p) as [->|N].
    + apply pc_conf; auto.
      destruct (ic_accept_authentic P s0 rx a p y bno core (g_inv _ _ _ (proj1 K0)) L HI) as [Au Y].
      assert (y = x) as -> by congruence. eapply rest_authentic; [|exact Au].
      destruct HA as [[_ ->]|[_ F]]; auto. eapply ic_failed_rest; eauto.
    + rewrite (sr_pe _ _ _ _ _ R) in X'. destruct (Nat.eqb_spec q p); [contradiction|].
      rewrite X0 in X'. injection X' as <-. constructor.
  - assert (exists x', pe s2 p = Some x') as (x' & X').
    { destruct (ev_pe _ _ (g_evo _ _ _ (proj1 K1)) p x X) as (x1 & X1 & _).
      rewrite (sr_pe _ _ _ _ _ R2). destruct (Nat.eqb q p); eauto. }
    exists x'. split; auto.
    assert (pe s0 p = Some x \/ conf_authentic P s x rx) as [X0|Au]; [| |now apply pc_conf].
    { destruct HA as [[_ ->]|[_ F]]; auto. eapply ic_failed_pe; eauto. }
    destruct (Nat.eq_dec q p) as [->|N].
    + apply pc_conf; auto.
      destruct (ic_accept_authentic P s0 rx _ p y bno core (g_inv _ _ _ (proj1 K0)) L HI) as [Au Y].
      assert (y = x) as -> by congruence. eapply rest_authentic; [|exact Au].
      destruct HA as [[_ ->]|[_ F]]; auto. eapply ic_failed_rest; eauto.
    + rewrite (sr_pe _ _ _ _ _ R2) in X'. destruct (Nat.eqb_spec q p); [contradiction|].
      rewrite (sr_pe _ _ _ _ _ R) in X'. destruct (Nat.eqb_spec q p); [contradiction|].
      rewrite X0 in X'. injection X' as <-. constructor.
  - rewrite (pe_with_peer _ _ _ _ _ Hp). destruct (Nat.eqb_spec q p) as [->|N].
    + eexists. split; [reflexivity|]. assert (y = x) as -> by congruence. now constructor.
    + exists x. split; auto. constructor.
  - destruct (Nat.eq_dec q p) as [->|N]; [|exists x; split; [eauto|constructor]].
    assert (y = x) as -> by congruence.
    eexists. split; [eapply st_rel_self; eauto|]. now constructor.
  - rewrite (pe_with_peer _ _ _ _ _ Hp). destruct (Nat.eqb_spec q p) as [->|N].
    + eexists. split; [reflexivity|]. assert (y = x) as -> by congruence. now constructor.
    + exists x. split; auto. constructor.
  - rewrite (pe_with_peer _ _ _ _ _ Hp). destruct (Nat.eqb_spec q p) as [->|N].
    + eexists. split; [reflexivity|]. assert (y = x) as -> by congruence. now apply pc_cookie with (h := h).
    + exists x. split; auto. constructor.
Qed.

Lemma cs_choice_authentic now c s x rx :
  let s1 := fst (cs_choice now c s) in
  (resp_authentic P s1 x rx -> resp_authentic P s x rx) /\
  (conf_authentic P s1 x rx -> conf_authentic P s x rx).
Proof.
  cbn zeta. destruct (cs_choice_frame now c s) as (A & B & _).
  destruct (cs_choice_same now c s) as (_ & _ & _ & K & _).
  unfold resp_authentic, resp_chain, conf_authentic. rewrite A, B. split; auto.
  intros (a & pt & e & O & R). exists a, pt, e. now rewrite K in O.
Qed.

(** The same for the calls that take messages. *)
Lemma exec_msg_peer c rx s s' r p x : inv P s -> valid c s -> received c = Some rx ->
  exec P c s = (s', r) -> pe s p = Some x ->
  exists x' r0, pe s' p = Some x' /\ pchange s rx p x x' r0 /\
    (forall m, r = Ok (RHandled m) <-> r0 = Ok m) /\ (forall e, r = Err e <-> r0 = Err e).
Proof.
  intros I V Rc E X. pose proof (exec_step P c s s' r I V E) as S. unfold received in Rc.
  destruct (cs_choice_same (c_now c) (c_coins c) s) as (EP & _).
  pose proof (cs_choice_good P (c_now c) (c_coins c) s I) as G.
  inversion S as [psk pk a ds Eo|psk pk a ds Eo|q tx q' Eo|q tx y s1 Eo Y Fr R
    |rx' tx s1 r0 Eo M|rx' tx host s1 r0 Eo M|s1 r0 Eo Ps|q tx r0 Eo N|q r0 Eo N]; subst;
    rewrite Eo in Rc; try discriminate; injection Rc as ->.
  - destruct (msg_peer _ _ _ _ _ _ _ p x I M X) as (x' & X' & C). exists x', r0.
    split; auto. split; auto.
    destruct r0; cbn; split; intros; split; congruence.
  - assert (exists x', pe s' p = Some x' /\ pchange s rx p x x' r0) as (x' & X' & C).
    { assert (pe (fst (cs_choice (c_now c) (c_coins c) s)) p = Some x) as X1
        by (unfold pe in *; now rewrite EP).
      destruct M as [e|s1 r FT M|s1 r FT L CV M|e FT|i l FT L EL CV].
      - exists x. split; auto. constructor.
      - eapply msg_peer; eauto.
      - destruct (msg_peer _ _ _ _ _ _ _ p x (g_inv _ _ _ G) M X1) as (x' & X' & C).
        exists x'. split; auto.
        destruct (cs_choice_authentic (c_now c) (c_coins c) s x rx) as [Ar Ac]. cbn zeta in *.
        destruct C; solve [constructor; auto|eapply pc_counter; eauto|eapply pc_ack; eauto
          |eapply pc_cookie_rej; eauto|eapply pc_cookie; eauto].
      - exists x. split; auto. constructor.
      - exists x. split; auto. constructor. }
    exists x', r0. split; auto. split; auto.
    destruct r0; cbn; split; intros; split; congruence.
Qed.
End Steps.

(** * C08 *)

(** What a rejected message may change in a peer record. *)
Inductive rejected_change (P : prims) (s : srv) (rx : bytes) (x : peer) : peer -> Prop :=
| rj_nothing : rejected_change P s rx x x
| rj_counter u n : is_type x84 rx -> p_session x = Some u ->
    rejected_change P s rx x (set_session (Some (set_txnt n u)) x)
| rj_cookie h st : is_type x86 rx -> p_handshake x = Some h ->
    rejected_change P s rx x (set_handshake (Some (set_hs_cookie st h)) x)
| rj_resp x' : is_type x82 rx -> resp_authentic P s x rx -> rejected_change P s rx x x'
| rj_conf x' : is_type x83 rx -> conf_authentic P s x rx -> rejected_change P s rx x x'.

(** A rejected message changes a peer record only in the ways listed: the receive counter
    (EmptyData), the stored cookie (CookieReply), anything if the tags of a RespHello or
    InitConf are right and only its seal, hash version or session id is not.
    Missing for the full property: those exceptions, which are refuted below. *)
Theorem C08_rejected_partial : forall P s c rx s' e p x,
  reachable P s -> valid c s -> received c = Some rx -> exec P c s = (s', Err e) ->
  pe s p = Some x ->
  exists x', pe s' p = Some x' /\ rejected_change P s rx x x'.
Proof.
  intros P s c rx s' e p x (s0 & h & I0 & R) V Rc E X.
  pose proof (run_inv P _ _ _ (initial_inv P _ I0) R) as I.
  destruct (exec_msg_peer P c rx s s' _ p x I V Rc E X) as (x' & r0 & X' & C & _ & Er).
  exists x'. split; auto. assert (r0 = Err e) as -> by now apply Er.
  inversion C; subst; solve [constructor; auto|eapply rj_counter; eauto|eapply rj_cookie; eauto].
Qed.
Print Assumptions C08_rejected_partial.

(** In particular an InitHello that is rejected changes no peer record at all. *)
Theorem C08_rejected_hello : forall P s c rx s' e p x,
  reachable P s -> valid c s -> received c = Some rx -> is_type x81 rx ->
  exec P c s = (s', Err e) -> pe s p = Some x -> pe s' p = Some x.
Proof.
  intros P s c rx s' e p x Rs V Rc Ty E X.
  destruct (C08_rejected_partial P s c rx s' e p x Rs V Rc E X) as (x' & X' & C).
  unfold is_type in *. destruct C; auto; congruence.
Qed.
Print Assumptions C08_rejected_hello.

(** Witness: a RespHello whose mac was damaged on the way is rejected, yet a session and an
    output key appear, and the undamaged message is refused afterwards. *)
Definition damaged (n : nat) (m : bytes) : bytes := firstn n m ++ [x00; x00] ++ skipn (n + 2) m.
Definition bad2 := Eval vm_compute in damaged 1068 Demo.m2.
Definition cBad2 := Demo.mk (secs 3) xcc (OMsg bad2 Demo.tx).
Definition aBad2 := Eval vm_compute in exec Demo.P cBad2 Demo.A2.

Lemma reachA2 : reachable Demo.P Demo.A2.
Proof.
  eapply (Demo.reach Demo.A0 [(Demo.cA1, snd Demo.rA1); (Demo.cA2, snd Demo.rA2)]); [exact Demo.initA|].
  apply Demo.step; [split; [apply Demo.wf_coin|exact Logic.I]|vm_compute; reflexivity|].
  change (fst Demo.rA1) with Demo.A1.
  apply Demo.step; [Demo.okv|vm_compute; reflexivity|]. constructor.
Qed.
Lemma reachA3 : reachable Demo.P Demo.A3.
Proof.
  eapply (reachable_run Demo.P Demo.A2 [(Demo.cA3, snd Demo.rA3)]); [exact reachA2|].
  apply Demo.step; [Demo.okv|vm_compute; reflexivity|]. constructor.
Qed.
Lemma reachB2 : reachable Demo.P Demo.B2.
Proof.
  eapply (Demo.reach Demo.B0 [(Demo.cB1, snd Demo.rB1); (Demo.cB2, snd Demo.rB2)]); [exact Demo.initB|].
  apply Demo.step; [split; [apply Demo.wf_coin|exact Logic.I]|vm_compute; reflexivity|].
  change (fst Demo.rB1) with Demo.B1.
  apply Demo.step; [Demo.okv|vm_compute; reflexivity|]. constructor.
Qed.

Theorem C08_no_effect_refuted : exists s c rx s' e,
  reachable Demo.P s /\ valid c s /\ received c = Some rx /\ exec Demo.P c s = (s', Err e) /\
  snd (osk Demo.P 0 s) = Err ENoSession /\
  (exists k, snd (osk Demo.P 0 s') = Ok k) /\
  (exists m, snd (exec Demo.P Demo.cA3 s) = Ok m) /\
  (exists e', snd (exec Demo.P Demo.cA3 s') = Err e').
Proof.
  exists Demo.A2, cBad2, bad2, (fst aBad2). exists ESeal.
  split; [exact reachA2|]. split; [Demo.okv|]. split; [reflexivity|].
  split; [vm_compute; reflexivity|]. split; [vm_compute; reflexivity|].
  split; [eexists; vm_compute; reflexivity|]. split; eexists; vm_compute; reflexivity.
Qed.
Print Assumptions C08_no_effect_refuted.

(** The same for an InitConf: the biscuit is used up, so the undamaged message is refused. *)
Definition bad3 := Eval vm_compute in damaged 144 Demo.m3.
Definition cBad3 := Demo.mk (secs 4) xcc (OMsg bad3 Demo.tx).
Definition bBad3 := Eval vm_compute in exec Demo.P cBad3 Demo.B2.
Theorem C08_no_effect_refuted_conf : exists s c rx s' e,
  reachable Demo.P s /\ valid c s /\ received c = Some rx /\ exec Demo.P c s = (s', Err e) /\
  snd (osk Demo.P 0 s) = Err ENoSession /\
  (exists k, snd (osk Demo.P 0 s') = Ok k) /\
  (exists m, snd (exec Demo.P Demo.cB3 s) = Ok m) /\
  (exists e', snd (exec Demo.P Demo.cB3 s') = Err e').
Proof.
  exists Demo.B2, cBad3, bad3, (fst bBad3). exists ESeal.
  split; [exact reachB2|]. split; [Demo.okv|]. split; [reflexivity|].
  split; [vm_compute; reflexivity|]. split; [vm_compute; reflexivity|].
  split; [eexists; vm_compute; reflexivity|]. split; eexists; vm_compute; reflexivity.
Qed.
Print Assumptions C08_no_effect_refuted_conf.

(** * C09 *)

Section Keys.
Context (P : prims).

Definition same_key (x x' : peer) : Prop :=
  p_alg x' = p_alg x /\ p_ds x' = p_ds x /\
  option_map (fun u => (se_ck u, se_alg u)) (p_session x') =
  option_map (fun u => (se_ck u, se_alg u)) (p_session x).

Lemma osk_value s p x : pe s p = Some x ->
  snd (osk P p s) = match p_session x with
                    | None => Err ENoSession
                    | Some u => Ok (hmix P (se_alg u) (se_ck u) (ds_compress P (p_alg x) (p_ds x)))
                    end.
Proof.
  intros X. unfold osk, osk_with_domain_separator, bind, get_peer. unfold pe in X. rewrite X.
  rewrite X. destruct (p_session x); reflexivity.
Qed.

Lemma same_key_osk s s' p x x' : pe s p = Some x -> pe s' p = Some x' -> same_key x x' ->
  snd (osk P p s') = snd (osk P p s).
Proof.
  intros X X' (A & D & K). rewrite (osk_value _ _ _ X), (osk_value _ _ _ X'), A, D.
  destruct (p_session x), (p_session x'); cbn [option_map] in K; try discriminate; auto.
  now injection K as -> ->.
Qed.
End Keys.

(** The output key of a peer is the same before and after every call, unless the call
    reports that an exchange with the peer completed or that its key must be deleted, or
    takes a RespHello or InitConf whose tags are right for that peer.
    Missing for the full property: in the last case the call may report an error (or, for
    an InitConf whose biscuit opens in two hash versions, another peer); refuted below. *)
Theorem C09_key_changes_partial : forall P s c s' r p,
  reachable P s -> valid c s -> p < npeers s -> exec P c s = (s', r) ->
  snd (osk P p s') = snd (osk P p s) \/ exchanged r p \/ r = Ok (RPolled (DeleteKey p)) \/
  exists x rx, pe s p = Some x /\ received c = Some rx /\
    (is_type x82 rx /\ resp_authentic P s x rx /\ (exists e, r = Err e) \/
     is_type x83 rx /\ conf_authentic P s x rx).
Proof.
  intros P s c s' r p Rs V Lp E. pose proof Rs as (s0 & h & I0 & R).
  pose proof (run_inv P _ _ _ (initial_inv P _ I0) R) as I.
  destruct (pe_some s p Lp) as [x X].
  destruct (received c) as [rx|] eqn:Rc.
  - destruct (exec_msg_peer P c rx s s' _ p x I V Rc E X) as (x' & r0 & X' & C & Eo & Er).
    inversion C; subst;
      try (left; eapply same_key_osk; eauto; (split; [reflexivity|split; [reflexivity|]]));
      try reflexivity;
      try (match goal with H : p_session x = Some _ |- _ => cbn; rewrite H; reflexivity end).
    + right; right; right. exists x, rx. split; auto. split; auto. left. split; auto. split; auto.
      exists e. now apply Er.
    + right; left. exists m. now apply Eo.
    + right; right; right. exists x, rx. split; auto.
  - assert ({c_op c = OPoll} + {c_op c <> OPoll}) as [Ep|Ep] by (destruct (c_op c); auto; right; discriminate).
    + assert (r = Ok (RPolled (DeleteKey p)) \/ r <> Ok (RPolled (DeleteKey p))) as [D|D].
      { destruct r as [[| | |[| q| |]|]| |]; try (right; discriminate).
        destruct (Nat.eq_dec q p) as [->|]; [now left|right; congruence]. }
      * auto.
      * left. destruct (C12_no_silent_delete P s c s' r p x Rs V Ep E X D) as (x' & X' & Es).
        eapply same_key_osk; eauto.
        destruct (ev_pe _ _ (exec_evo P c s s' r I V E) p x X) as (y & Y & W).
        rewrite X' in Y. injection Y as <-. destruct W. unfold same_key. rewrite Es. auto.
    + left. pose proof (exec_step P c s s' r I V E) as S.
      inversion S as [psk pk a ds Eo|psk pk a ds Eo|q tx q' Eo|q tx y s1 Eo Y Fr R1
        |rx' tx s1 r0 Eo M|rx' tx host s1 r0 Eo M|s1 r0 Eo Ps|q tx r0 Eo N|q r0 Eo N]; subst;
        unfold received in Rc; try (rewrite Eo in Rc; discriminate); try contradiction; try reflexivity.
      * eapply same_key_osk; [exact X| |repeat split].
        unfold pe in *. cbn [s_peers set_peers set_index]. rewrite nth_error_app1; [exact X|].
        apply nth_error_Some. congruence.
      * assert (exists x', pe s' p = Some x' /\ same_key x x') as (x' & X' & SK).
        { rewrite (sr_pe _ _ _ _ _ R1). destruct (Nat.eqb_spec q p) as [->|]; eexists; split;
            try reflexivity; try exact X; [|repeat split].
          rewrite X in Y. injection Y as <-. repeat split. }
        eapply same_key_osk; eauto.
Qed.
Print Assumptions C09_key_changes_partial.

(** The full property fails: both damaged messages above change the key returned by [osk]
    in a call that returns an error. *)
Theorem C09_key_changes_refuted : exists s c s' e,
  reachable Demo.P s /\ valid c s /\ exec Demo.P c s = (s', Err e) /\
  snd (osk Demo.P 0 s') <> snd (osk Demo.P 0 s).
Proof.
  destruct C08_no_effect_refuted as (s & c & rx & s' & e & A & B & _ & D & E & (k & F) & _).
  exists s, c, s', e. rewrite E, F. split; [exact A|]. split; [exact B|]. split; [exact D|]. discriminate.
Qed.
Print Assumptions C09_key_changes_refuted.

Example C09_nonvacuous :
  (exists k, snd (osk Demo.P 0 Demo.A3) = Ok k /\ snd (osk Demo.P 0 Demo.A4) = Ok k /\
             snd (osk Demo.P 0 Demo.B3) = Ok k) /\
  exchanged (snd Demo.rA3) 0 /\ snd (osk Demo.P 0 Demo.A2) = Err ENoSession.
Proof.
  split; [eexists; split; [vm_compute; reflexivity|split; vm_compute; reflexivity]|].
  split; [eexists; reflexivity|vm_compute; reflexivity].
Qed.

(** * C23 *)

(** An InitHello is answered only if it authenticates a peer in the hash version configured
    for that peer, and the answer is sealed for that peer in that version. *)
Theorem C23_init_hello : forall P s c rx s' r m,
  reachable P s -> valid c s -> received c = Some rx -> exec P c s = (s', r) ->
  replied r m -> is_type x82 m ->
  exists p x, pe s p = Some x /\
    hello_authentic P s (p_alg x) rx (peer_id P (p_alg x) (p_spkt x)) (p_spkt x) (p_psk x) /\
    slice 1068 16 m =
      firstn 16 (hashed P (p_alg x) (domain P (p_alg x) ["mac"%string]) [p_spkt x; firstn 1068 m]).
Proof.
  intros P s c rx s' r m (s0 & h & I0 & R) V Rc E (o & ->) Ty.
  pose proof (run_inv P _ _ _ (initial_inv P _ I0) R) as I.
  assert (forall now c0 tx t t' r0, wf_coins c0 -> inv P t -> 1100 <= length tx ->
    msgstep P now c0 rx tx t t' r0 -> r0 = Ok {| mr_exchanged := o; mr_resp := Some m |} ->
    exists p x, pe t p = Some x /\
    hello_authentic P t (p_alg x) rx (peer_id P (p_alg x) (p_spkt x)) (p_spkt x) (p_psk x) /\
    slice 1068 16 m = mac_of P (p_alg x) (p_spkt x) (firstn 1068 m)) as K.
  { intros now c0 tx t t' r0 W It LT M Er.
    destruct M as [e|q x ck a e FT L T|q x ck FT L T CS
    |q x h' ic core s1 FT L Hi Hp Hh Hs Hno Hc CS R'
    |q x h' ic core s1 FT L Hi Hp Hh Hs Hno Hc CS R'
    |q x k' FT L EK Hp Hk Hm CS
    |e s1 s2 FT L EK F1 F2 K1 K2
    |u0 a q x bno core s1 e FT L EK HA K0 K1 HI SF R'
    |u0 q x bno core s1 s2 FT L EK HA K0 K1 HI SF R' CS R2
    |q x h' u FT L Hi Hp Hh Hs Hno Hu CS Ht D
    |q x h' u s1 pt FT L Hi Hp Hh Hs Hno Hu CS Ht D R'
    |q x h' mac v FT L Hi Hp Hd Hh Hm D
    |q x h' mac v FT L Hi Hp Hd Hh Hm D]; try discriminate Er;
    unfold handled in Er; injection Er as _ Er; subst m;
    try (exfalso; revert Ty; now apply commit_not).
    destruct (ih_try_pe P _ _ _ _ _ _ T) as [X HA].
    destruct (ih_accept_authentic P t rx (p_alg x) q x ck L HA) as (pid & Au & Fp & _).
    destruct (i_peer1 P t It _ _ Fp) as (y & Y & Ep). rewrite X in Y. injection Y as <-.
    exists q, x. split; [exact X|]. split.
    - unfold pidt in Ep. now rewrite Ep.
    - unfold rh_msg.
      assert (length (ser_rh (rh_of P now c0 t x (parse_ih (env_payload IH_LEN rx)) (p_alg x) ck)) = RH_LEN) as Ls.
      { apply ser_rh_len, rh_of_wf; auto; first [apply (i_bctr P t It)|apply (wf_rx_ih rx L)]. }
      set (msg := ser_rh _) in *. clearbody msg.
      pose proof (commit_upto_mac P x MRespHello RH_LEN msg tx Ls LT) as E1.
      pose proof (commit_upto_cookie P x MRespHello RH_LEN msg tx Ls LT) as E2.
      change (4 + RH_LEN) with 1068 in E1. change (20 + RH_LEN) with 1084 in E2.
      set (m := commit_msg _ _ _ _ _ _) in *. clearbody m. rewrite E1.
      assert (slice 1068 16 m = slice 1068 16 (firstn 1084 m)) as ->.
      { unfold slice. rewrite skipn_firstn_comm, firstn_firstn. reflexivity. }
      rewrite E2. rewrite slice_skip.
      + replace (1068 - length _) with 0; [now rewrite slice_all by apply mac_of_len|].
        rewrite (body_len MRespHello RH_LEN) by (auto; lia). reflexivity.
      + rewrite (body_len MRespHello RH_LEN) by (auto; lia). apply Nat.leb_le. reflexivity. }
  destruct (handled_msgstep P c rx s s' _ I V Rc E) as (tx & t & Ht & LT & [M|(FT & Es & _ & m' & Em & T')]).
  - destruct V as [W _]. destruct Ht as [->| ->].
    + eapply K; eauto.
    + destruct (cs_choice_same (c_now c) (c_coins c) s) as (EP & _).
      destruct (cs_choice_frame (c_now c) (c_coins c) s) as (A & B & _).
      destruct (K _ _ _ _ _ _ W (g_inv _ _ _ (cs_choice_good P _ _ _ I)) LT M eq_refl)
        as (p & x & X & Au & S).
      exists p, x. split; [unfold pe in *; now rewrite <- EP|]. split; [|exact S].
      unfold hello_authentic in *. now rewrite A, B in Au.
  - exfalso. cbn [mr_resp] in Em. injection Em as ->. unfold is_type in *. congruence.
Qed.
Print Assumptions C23_init_hello.

(** An InitConf that completes an exchange carries a biscuit that opens, in the version
    configured for the peer, to the id of that peer; the session uses that version. *)
Theorem C23_init_conf : forall P s c rx s' r p,
  reachable P s -> valid c s -> received c = Some rx -> is_type x83 rx ->
  exec P c s = (s', r) -> exchanged r p ->
  exists x x' pt u, pe s p = Some x /\ pe s' p = Some x' /\
    biscuit_opens P (p_alg x) (s_spkm s) (named_key s (conf_biscuit rx)) (conf_sidi rx)
      (conf_sidr rx) (conf_biscuit rx) pt /\
    biscuit_peer pt = peer_id P (p_alg x) (p_spkt x) /\
    p_session x' = Some u /\ se_alg u = p_alg x.
Proof.
  intros P s c rx s' r p (s0' & h & I0 & R0) V Rc Ty E (m & ->).
  pose proof (run_inv P _ _ _ (initial_inv P _ I0) R0) as I.
  destruct (handled_msgstep P c rx s s' _ I V Rc E) as (tx & s0 & Hs0 & LT & [M|(FT & _)]).
  2:{ apply first_type_of in Ty. cbn in Ty. congruence. }
  apply first_type_of in Ty. cbn in Ty.
  destruct (cs_choice_same (c_now c) (c_coins c) s) as (EP & EI & EPK & EK & _).
  inversion M; subst; try congruence.
  match goal with H : length rx = 176 |- _ => rename H into L end.
  match goal with H : ic_accept _ _ _ _ = inl _ |- _ => rename H into HI end.
  match goal with H : _ /\ _ \/ _ /\ _ |- _ => rename H into HA end.
  match goal with K : keep P s0 s1 |- _ => rename K into K0 end.
  destruct (ic_accept_spec P _ _ _ _ _ _ _ L HI) as (pt & O & -> & Fp & X & Lt).
  assert (rest s1 = rest s0) as ER.
  { destruct HA as [[_ ->]|[_ F]]; auto. eapply ic_failed_rest; eauto. }
  rewrite (rest_key _ _ _ ER), (rest_pk _ _ ER) in O.
  assert (exists y, pe s p = Some y /\ p_alg y = p_alg x /\ p_spkt y = p_spkt x) as (y & Y & Ya & Yb).
  { pose proof (inv_pe P s1 (KPeer (biscuit_peer pt)) p (g_inv _ _ _ (proj1 K0)) Fp) as [x0 X0].
    assert (p < npeers s) as Lp.
    { apply pe_lt in X0. rewrite (g_n _ _ _ (proj1 K0)) in X0.
      destruct Hs0 as [->| ->]; auto. unfold npeers in *. now rewrite EP in X0. }
    destruct (pe_some s p Lp) as [y Y]. exists y. split; auto.
    assert (pe s0 p = Some y) as Y0.
    { destruct Hs0 as [->| ->]; auto. unfold pe. now rewrite EP. }
    destruct (ev_pe _ _ (g_evo _ _ _ (proj1 K0)) p y Y0) as (x1 & X1 & W).
    rewrite X in X1. injection X1 as <-. destruct W. split; congruence. }
  destruct (i_peer1 P s1 (g_inv _ _ _ (proj1 K0)) _ _ Fp) as (z & Z & Ep).
  rewrite X in Z. injection Z as <-.
  match goal with R : st_rel _ s' p _ _ |- _ => rename R into R2 end.
  exists y. eexists. exists pt. eexists.
  split; [exact Y|]. split; [eapply st_rel_self; exact R2|]. rewrite Ya, Yb.
  split; [|split; [|split]].
  - destruct Hs0 as [->| ->]; auto. now rewrite EK, EPK in O.
  - rewrite <- Ep. reflexivity.
  - reflexivity.
  - cbn [set_txnm se_alg]. unfold ic_session, enter_live. cbn [se_alg].
    unfold ic_accept in HI.
    destruct (xdec _ _ _ _); [|discriminate].
    destruct (find_peer _ _) as [q|]; [|discriminate].
    destruct (pe s1 q) as [y'|]; [|discriminate].
    destruct (handle_ic_ck _ _ _); [|discriminate].
    destruct (N.leb _ _); [discriminate|]. injection HI as _ <- _ <-. reflexivity.
Qed.
Print Assumptions C23_init_conf.

(** The example servers meet both; a responder that has the initiator configured with the
    other version rejects the same InitHello. *)
Definition B1v2 := Eval vm_compute in
  fst (exec Demo.P (Demo.mk 1 x02 (OAddPeer Demo.psk Demo.pkA Blake ExtensionWireguardPsk)) Demo.B0).
Example C23_nonvacuous :
  replied (snd Demo.rB2) Demo.m2 /\ is_type x82 Demo.m2 /\ exchanged (snd Demo.rB3) 0 /\
  exists e, snd (exec Demo.P Demo.cB2 B1v2) = Err e.
Proof.
  split; [eexists; reflexivity|]. split; [reflexivity|]. split; [eexists; reflexivity|].
  eexists. vm_compute. reflexivity.
Qed.
