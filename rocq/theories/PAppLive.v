(** C57-C59: what a turn of the application server asks for, and how it can fail. *)
From Verif Require Import Base ConstTime Prims HashDomains Wire Server Protocol Wp Inv Rules Calls PollRules System
  Trans Demo PSafety PPoll PHandshake PRetransmit Builder PBuilder AppNet PAppNet AppIo PAppIo App PApp.

(** * C57 *)

Lemma not_requested_twice P c s s' p : reachable P s -> valid c s -> c_op c = OPoll -> requested p s ->
  exec P c s <> (s', Ok (RPolled (SendInitiation p))).
Proof.
  intros R V Eo (x & X & Hr) E.
  destruct (C13_request_is_due P s c s' p R V Eo E) as (y & Y & D & _). congruence.
Qed.

Lemma turn_requested P u a a' cs t r s p : appinv P a -> turn_ok u a -> app_turn P u a = (a', cs, t, r) ->
  a_site a = Product s -> requested p s ->
  (exists s', a_site a' = Product s' /\ requested p s') /\
  forall c q tx, In (c, q) cs -> c_op c <> OInitiate p tx.
Proof.
  intros I W E Es0 Q. pose proof (turn_view P u a a' cs t r I W E) as V. clear E.
  assert (valid (poll_call u) s) as Vp by (split; [exact (proj1 W)|exact Logic.I]).
  pose proof (ai_reach P a I s Es0) as R.
  assert (forall s1 q, exec P (poll_call u) s = (s1, q) -> requested p s1) as Q1.
  { intros s1 q E. eapply (requested_exec P p (poll_call u) s s1 q); eauto using reachable_inv. intros tx m; discriminate. }
  destruct V as [p0 q o s0 s1 a1 cs1 t1 r1 Es Ex Hq Et|p0 s0 s1 a1 t1 r1 Es Ex Ed|a0 cs0 r0 H0 Hn _ _ _|a0 cs0 s2 rx sock from a1 cs1 t1 r1 H0 Hn Hr Hs2 Ev].
  - rewrite Es0 in Es. injection Es as <-.
    destruct (poll_result P s (poll_call u) s1 _ R Vp eq_refl Ex) as (R1 & N1 & q' & [= <-] & B).
    pose proof (appinv_site P a s s1 I Es0 R1 N1) as I1.
    assert (p0 < npeers s) as Hp by (destruct Hq as [(-> & _)|(-> & _)]; exact B).
    assert (length (s_peers s1) = length (a_peers a)) as L1 by (apply (ai_count P _ I1); reflexivity).
    assert (p0 < length (s_peers s1)) as Hp1 by (unfold npeers in *; lia).
    destruct (tx_spec P u p0 o s1 (set_site (Product s1) a) a1 cs1 t1 r1 R1 L1 eq_refl W Hp1) as (x & X & K).
    { destruct Hq as [(_ & ->)|(_ & ->)]; auto. } { exact Et. }
    assert (forall tx, o <> OInitiate p tx) as No.
    { intros tx ->. destruct Hq as [(-> & [= <-])|(_ & [=])]. subst.
      eapply (not_requested_twice P (poll_call u) s s1 p); eauto. }
    destruct K as [(He & -> & -> & -> & ->)|(e & s' & q' & He & Ex' & -> & R' & L' & Es' & Ei & _ & K)].
    + split; [exists s1; split; [reflexivity|eauto]|]. intros c q0 tx H. destruct H as [H|[]]. injection H as <- _. discriminate.
    + split.
      * exists s'. split; [exact Es'|]. eapply (requested_exec P p (next_call u o) s1 s' q'); eauto using reachable_inv.
        -- split; [exact (proj1 (proj2 W))|]. destruct W as (_ & _ & Wt & _). destruct Hq as [(_ & ->)|(_ & ->)]; cbn; auto.
        -- intros tx m Ho. now elim (No tx).
      * intros c q0 tx H. destruct H as [H|[H|[]]]; injection H as <- _; [discriminate|]. apply No.
  - rewrite Es0 in Es. injection Es as <-. split.
    + exists s1. split; [|eauto]. unfold delete_key in Ed.
      destruct (output_key _ _ _ _ _ _ _) as [t2 [v|e|]]; try (injection Ed as <- _ _; reflexivity).
      destruct (nth_error _ _); injection Ed as <- _ _; reflexivity.
    + intros c q0 tx H. destruct H as [H|[]]. injection H as <- _. discriminate.
  - destruct H0 as [(s0 & s1 & d & Es & Ex & -> & ->)|(N & _)]; [|now elim (N s)].
    rewrite Es0 in Es. injection Es as <-.
    destruct (before_recv P u a (set_site (Product s1) a) [(poll_call u, Ok (RPolled (Sleep d)))] I W) as (I0 & _); [left; eauto 10|].
    pose proof (supplies_spec P (u_supply u) (Product s1) (ai_reach P _ I0)) as SS.
    unfold after_recv. cbn [set_load set_site set_io a_site]. destruct (supplies _ _ _) as [c b].
    destruct SS as (_ & _ & _ & F). rewrite (F s1 eq_refl). split; [exists s1; split; [reflexivity|eauto]|].
    intros c0 q0 tx H. destruct H as [H|[]]. injection H as <- _. discriminate.
  - destruct H0 as [(s0 & s1 & d & Es & Ex & -> & ->)|(N & _)]; [|now elim (N s)].
    rewrite Es0 in Es. injection Es as <-.
    destruct (before_recv P u a (set_site (Product s1) a) [(poll_call u, Ok (RPolled (Sleep d)))] I W) as (I0 & Ei & Ep); [left; eauto 10|].
    pose proof (supplies_spec P (u_supply u) (Product s1) (ai_reach P _ I0)) as SS.
    assert (s2 = s1) as ->.
    { unfold after_recv in Hs2. cbn [set_load set_site set_io a_site] in Hs2. destruct (supplies _ _ _) as [c b].
      destruct SS as (_ & _ & _ & F). rewrite (F s1 eq_refl) in Hs2. now injection Hs2. }
    pose proof (after_recv_inv P u _ I0) as I2.
    destruct W as (_ & Wc & Wt & Ws). rewrite Hr in Ws. set (a0 := set_site (Product s1) a) in *.
    assert (sock < io_sockets (a_io (after_recv P u a0))) as Hs.
    { unfold after_recv. cbn [set_load set_site set_io a_io]. pose proof (ops_sockets (u_ops u) (a_io a0)). rewrite Ei in *. lia. }
    assert (length (s_peers s1) = length (a_peers (after_recv P u a0))) as L2 by (apply (ai_count P _ I2); rewrite Hs2; reflexivity).
    destruct (receive_spec P u rx sock from s1 _ a1 cs1 t1 r1 (ai_reach P _ I2 s1 Hs2) L2 Hs2 Wc Wt Hs Ev)
      as (s' & q & Ex2 & R' & L' & Es' & Ei' & _ & K).
    set (c := next_call u (msg_op u (a_under_load (after_recv P u a0)) rx sock from)) in *.
    assert (valid c s1 /\ forall tx, c_op c <> OInitiate p tx) as (Vc & No).
    { unfold c, msg_op, next_call, valid. cbn [c_op c_coins]. destruct (a_under_load _); auto; split; auto; discriminate. }
    split.
    + exists s'. split; [exact Es'|]. eapply (requested_exec P p c s1 s' q); eauto using reachable_inv, ai_reach.
      intros tx m Ho. now elim (No tx).
    + intros c0 q0 tx H. apply in_app_iff in H. destruct H as [[H|[]]|H]; [injection H as <- _; discriminate|].
      assert (In c0 [c] \/ exists p1, In c0 [c; next_call u (OOsk p1)]) as H1.
      { destruct K as [(e & _ & -> & _)|(h & _ & [(m & _ & _ & -> & _)|(t2 & _ & [(_ & -> & _)|(p1 & x & k & t3 & _ & _ & _ & _ & -> & _)])])].
        all: try (left; destruct H as [H|[]]; injection H as <- _; now left). right. exists p1.
        destruct H as [H|[H|[]]]; injection H as <- _; [now left|right; now left]. }
      destruct H1 as [[<-|[]]|(p1 & [<-|[<-|[]]])]; auto. discriminate.
Qed.

(** Once the engine has asked for an initiation to a peer without known address, the server
    never again starts a handshake with it, not even after its address has become known. *)
Theorem C57_never_again_refuted : forall P a s p h a', settled P a -> a_site a = Product s -> requested p s ->
  app_run P a h a' -> (forall o r, In (o, r) h -> ~ lookup_fails o) ->
  (forall u cs t r c q tx, In (PTurn u, Turned cs t r) h -> In (c, q) cs -> c_op c <> OInitiate p tx) /\
  exists s', a_site a' = Product s' /\ requested p s'.
Proof.
  intros P a s p h a' S Es Q R NL. pose proof (settled_inv P a S) as I. clear S.
  revert s Es Q I NL. induction R as [a|a o a1 r h a2 V E NP R IH]; intros s Es Q I NL.
  - split; [intros u cs t r c q tx []|eauto].
  - assert (appinv P a1) as I1 by (eapply exec_appinv; eauto; eapply NL; now left).
    assert ((exists s1, a_site a1 = Product s1 /\ requested p s1) /\
      forall u cs t r0 c q tx, (o, r) = (PTurn u, Turned cs t r0) -> In (c, q) cs -> c_op c <> OInitiate p tx) as ((s1 & Es1 & Q1) & K).
    { destruct o as [pp f b host|u]; cbn [app_exec] in E.
      - split; [|discriminate]. destruct (app_add_peer P pp f b host a) as [a3 r3] eqn:A. injection E as <- _.
        unfold app_add_peer in A. rewrite Es in A. cbn [site_add_peer] in A.
        destruct (add_peer P (pp_psk pp) (pp_pk pp) (pp_alg pp) (pp_ds pp) s) as [s1 r1] eqn:Ea.
        assert (requested p s1) as Q1.
        { pose (c := {| c_now := 0%Z; c_coins := Demo.coin x00; c_op := OAddPeer (pp_psk pp) (pp_pk pp) (pp_alg pp) (pp_ds pp) |}).
          eapply (requested_exec P p c s s1 (match r1 with Ok n => Ok (RPeer n) | Err e => Err e | Panic => Panic end)).
          - apply reachable_inv. apply (ai_reach P a I s Es).
          - split; [apply Demo.wf_coin|exact Logic.I].
          - unfold exec, c. cbn [c_op]. unfold map_ok, bind. rewrite Ea. now destruct r1.
          - intros tx m; discriminate.
          - exact Q. }
        exists s1. split; [|exact Q1].
        destruct r1 as [n|e|]; [|injection A as <- _; reflexivity ..].
        destruct (negb _); [injection A as <- _; reflexivity|].
        destruct host as [[l|]|]; injection A as <- _; reflexivity.
      - destruct (app_turn P u a) as [[[a3 cs] t] r3] eqn:T. injection E as <- <-.
        destruct (turn_requested P u a a3 cs t r3 s p I V T Es Q) as (A & B). split; [exact A|].
        intros u0 cs0 t0 r0 c q tx [= <- <- <- <-]. apply B. }
    destruct (IH s1 Es1 Q1 I1 ltac:(intros; eapply NL; right; eauto)) as (A & B). split; [|exact B].
    intros u cs t r0 c q tx [H|H]; [|eauto]. eapply K; eauto.
Qed.
Print Assumptions C57_never_again_refuted.

(** Such a server: it has exchanged a key with the peer and knows its address. *)
Example C57_never_again_nonvacuous :
  settled Demo.P end3 /\ a_site end3 = Product eng3 /\ requested 0 eng3 /\
  map ap_endpoint (a_peers end3) = [Some (Bound 0 hostY)].
Proof.
  split; [exact end3_settled|]. split; [vm_compute; reflexivity|]. split; [|vm_compute; reflexivity].
  eexists. split; vm_compute; reflexivity.
Qed.

(** A peer whose address is known is initiated to in the turn in which the engine asks for it. *)
Theorem C57_initiates_partial : forall P a u a' cs t r p x e, settled P a -> turn_ok u a ->
  app_turn P u a = (a', cs, t, r) -> In (poll_call u, Ok (RPolled (SendInitiation p))) cs ->
  nth_error (a_peers a) p = Some x -> ap_endpoint x = Some e ->
  (exists er, cs = [(poll_call u, Ok (RPolled (SendInitiation p))); (next_call u (OInitiate p (u_tx u)), Err er)] /\
     r = Err (AEngine er)) \/
  (exists m, cs = [(poll_call u, Ok (RPolled (SendInitiation p))); (next_call u (OInitiate p (u_tx u)), Ok (RSent m))] /\
     ((exists sock to, t = [Sent sock to m] /\ In to (addresses e) /\ r = Ok false) \/ (t = [] /\ r = Err ASend))).
Proof.
  intros P a u a' cs t r p x e S W E Hin X He. pose proof (settled_inv P a S) as I.
  pose proof (turn_digest P u a a' cs t _ I W E) as D. clear E.
  assert (forall cs0, prelude u cs0 -> ~ In (poll_call u, Ok (RPolled (SendInitiation p))) cs0) as NP.
  { intros cs0 Pr H. apply (in_prelude _ _ _ _ Pr) in H. destruct H as (d & H). discriminate. }
  destruct D as [p0 x0 q X0 He0 Hq Ep Ei|p0 x0 q o e0 er X0 He0 Hq Ep Ei Hxx|p0 x0 q o e0 e' m t r X0 He0 Hq F Ep Ei
    |p0 x0 s' t r X0 Es Hp L O Ep Ei|cs0 r Pr Ep Hr Hfl Hterm Hdg|rx sock from cs0 c er Pr Hc Ep|rx sock from cs0 c h m Pr Hc Ep Hm Hu
    |rx sock from cs0 c h t1 Pr Hc Ep Hy Hx|rx sock from cs0 c h t1 s' p0 x0 k t2 r Pr Hc Hy Hx Es Hp L X0 Ep Hk O].
  - exfalso. destruct Hin as [Hin|[]]. injection Hin as ->. destruct Hq as [[= ->]|[=]]. congruence.
  - left. exists er. destruct Hin as [Hin|[Hin|[]]]; [|discriminate Hin]. injection Hin as ->.
    destruct Hq as [([= <-] & ->)|([=] & _)]. auto.
  - right. exists m. destruct Hin as [Hin|[Hin|[]]]; [|discriminate Hin]. injection Hin as ->.
    destruct Hq as [([= <-] & ->)|([=] & _)]. split; [reflexivity|].
    rewrite X in X0. injection X0 as <-. rewrite He in He0. injection He0 as <-.
    pose proof (ep_send_spec (u_sends u) (io_sockets (a_io a)) m e) as Q. rewrite F in Q.
    destruct Q as (_ & Q1 & Q2 & Q3 & Q4).
    destruct r as [[]|er|].
    + left. destruct (Q3 eq_refl) as (s & b & ->). destruct (Q1 _ (or_introl eq_refl)) as (s1 & b1 & [= <- <-] & Hb & _).
      exists s, b. auto.
    + right. split; [apply Q4; discriminate|].
      assert (er = ASend) as -> by (destruct e; cbn [ep_send] in F; [destruct (negb _); [discriminate|]; destruct (u_sends u _ _); congruence|];
        destruct (try_addrs _ _ _) as [? [[? ?]|]]; congruence). reflexivity.
    + exfalso. destruct (Q2 eq_refl) as (s & b & -> & Hs). unfold ap_endpoint in He. pose proof (nth_error_In _ _ X) as Hx.
      destruct (ap_current x) as [c|] eqn:C.
      * injection He as ->. pose proof (ai_bound P a I x s b Hx C). lia.
      * exact (ai_init P a I x s b Hx He).
  - destruct Hin as [Hin|[]]. discriminate Hin.
  - now elim (NP cs0 Pr).
  - apply in_app_iff in Hin. destruct Hin as [Hin|[Hin|[]]]; [now elim (NP cs0 Pr)|discriminate].
  - apply in_app_iff in Hin. destruct Hin as [Hin|[Hin|[]]]; [now elim (NP cs0 Pr)|discriminate].
  - apply in_app_iff in Hin. destruct Hin as [Hin|[Hin|[]]]; [now elim (NP cs0 Pr)|discriminate].
  - apply in_app_iff in Hin. destruct Hin as [Hin|[Hin|[Hin|[]]]]; [now elim (NP cs0 Pr)|discriminate..].
Qed.
Print Assumptions C57_initiates_partial.

(** * C58 *)

(** A turn never panics as long as handling requests and connections does not (C36) and every
    peer's WireGuard broker is still registered. *)
Theorem C58_turn_no_panic_partial : forall P a u a' cs t r, settled P a -> turn_ok u a ->
  app_turn P u a = (a', cs, t, r) ->
  snd (io_ops (u_ops u) (a_io a)) = false ->
  (forall x b, In x (a_peers a) -> ap_broker x = Some b ->
     mget b (io_brokers (a_io a)) <> None /\ mget b (io_brokers (a_io a')) <> None) ->
  r <> Panic.
Proof.
  intros P a u a' cs t r S W E Ho Hb. pose proof (settled_inv P a S) as I.
  pose proof (turn_digest P u a a' cs t _ I W E) as D. clear E.
  destruct D as [p0 x0 q X0 He0 Hq Ep Ei|p0 x0 q o e0 er X0 He0 Hq Ep Ei Hxx|p0 x0 q o e0 e' m t r X0 He0 Hq F Ep Ei
    |p0 x0 s' t r X0 Es Hp L O Ep Ei|cs0 r Pr Ep Hr Hfl Hterm Hdg|rx sock from cs0 c er Pr Hc Ep|rx sock from cs0 c h m Pr Hc Ep Hm Hu
    |rx sock from cs0 c h t1 Pr Hc Ep Hy Hx|rx sock from cs0 c h t1 s' p0 x0 k t2 r Pr Hc Hy Hx Es Hp L X0 Ep Hk O].
  all: try discriminate.
  - intros Hr. assert (r = Panic) as -> by (destruct r; [discriminate|discriminate|reflexivity]).
    pose proof (ep_send_spec (u_sends u) (io_sockets (a_io a)) m e0) as Q. rewrite F in Q.
    destruct Q as (_ & _ & Q2 & _). destruct (Q2 eq_refl) as (s & b & -> & Hs).
    unfold ap_endpoint in He0. pose proof (nth_error_In _ _ X0) as Hx.
    destruct (ap_current x0) as [c|] eqn:C.
    + injection He0 as ->. pose proof (ai_bound P a I x0 s b Hx C). lia.
    + exact (ai_init P a I x0 s b Hx He0).
  - intros Hr. assert (r = Panic) as -> by (destruct r; [discriminate|discriminate|reflexivity]).
    destruct (output_spec P u p0 Stale _ s' a t _ Hp L O) as (sp & x & _ & X & _ & _ & B & _).
    destruct (B eq_refl) as (b & Xb & M). destruct (Hb x b (nth_error_In _ _ X) Xb) as [H _]. contradiction.
  - intros ->. rewrite (Hr eq_refl) in Ho. discriminate.
  - intros Hr. assert (r = Panic) as -> by (destruct r; [discriminate|discriminate|reflexivity]).
    destruct (output_spec P u p0 Exchanged k s' a' t2 _ Hp L O) as (sp & x & _ & X & _ & _ & B & _).
    destruct (B eq_refl) as (b & Xb & M).
    rewrite Ep in X. rewrite nth_error_upd_eq in X by (eapply nth_error_Some; rewrite X0; discriminate).
    injection X as <-. cbn [set_current ap_broker] in Xb.
    destruct (Hb x0 b (nth_error_In _ _ X0) Xb) as [_ H]. contradiction.
Qed.
Print Assumptions C58_turn_no_panic_partial.

(** An [add_psk_broker] request whose deregistration of the old broker fails is answered with
    an internal error; the server then panics when it next has a key for a peer with that
    broker. *)
Definition run5 := sim [XTurn (secs 1) xaa false [IBroker 5 true] RNothing true;
  XAdd pB None (Some 0) (Some [hostX]);
  XTurn (secs 1) xaa false [] RNothing true;
  XTurn (secs 1 + 50000) xab false [IPskBroker (Some 6) false true] RNothing true] newA.
Definition end5 := Eval vm_compute in end_of run5.
Definition last5 : turn := mkturn (secs 1 + 100000) xcc false [] (RDatagram Demo.m2 0 hostX) true.
Lemma end5_eq : option_map snd run5 = Some end5. Proof. vm_compute. reflexivity. Qed.
Lemma end5_settled : settled Demo.P end5.
Proof. eapply end_settled; [|exact end5_eq]. reflexivity. Qed.
Theorem C58_missing_broker_refuted :
  settled Demo.P end5 /\ turn_ok last5 end5 /\ u_ops last5 = [] /\ snd (app_turn Demo.P last5 end5) = Panic.
Proof.
  split; [exact end5_settled|].
  split; [apply mkturn_ok; cbn; apply Demo.leb_le_c; vm_compute; reflexivity|].
  split; [reflexivity|]. vm_compute. reflexivity.
Qed.
Print Assumptions C58_missing_broker_refuted.

Example C58_nonvacuous :
  settled Demo.P end3 /\ a_site end3 = Product eng3 /\ length (a_peers end3) = 1 /\
  snd (io_ops [IBroker 5 true; IPskBroker (Some 6) true true] (a_io end3)) = false.
Proof.
  split; [exact end3_settled|]. repeat split; vm_compute; reflexivity.
Qed.

(** * C59 *)

(** A turn fails only if reading, sending or writing a key fails, if the peer has no address
    or the server no socket, or if the drawn session id is one in use. *)
Theorem C59_turn_errors_partial : forall P a u a' cs t e, settled P a -> turn_ok u a ->
  app_turn P u a = (a', cs, t, Err e) ->
  u_recv u = RFailed \/
  (exists b s, u_sends u b s = false) \/
  u_file u = false \/ u_line u = false \/ u_psk u = false \/
  (exists x l, In x (a_peers a) /\ ap_endpoint x = Some l /\ (addresses l = [] \/ io_sockets (a_io a) = 0)) \/
  (exists s q, reachable P s /\ ix s (KSid (c_sid (snd (u_call u)))) = Some q).
Proof.
  intros P a u a' cs t e Se W E. pose proof (settled_inv P a Se) as I.
  pose proof (turn_digest P u a a' cs t _ I W E) as D. clear E.
  remember (Err e) as r0 eqn:Er.
  destruct D as [p0 x0 q X0 He0 Hq Ep Ei|p0 x0 q o e0 er X0 He0 Hq Ep Ei Hxx|p0 x0 q o e0 e' m t r X0 He0 Hq F Ep Ei
    |p0 x0 s' t r X0 Es Hp L O Ep Ei|cs0 r Pr Ep Hr Hfl Hterm Hdg|rx sock from cs0 c er Pr Hc Ep|rx sock from cs0 c h m Pr Hc Ep Hm Hu
    |rx sock from cs0 c h t1 Pr Hc Ep Hy Hx|rx sock from cs0 c h t1 s' p0 x0 k t2 r Pr Hc Hy Hx Es Hp L X0 Ep Hk O];
    try discriminate.
  - destruct Hxx as (s & s1 & s' & Es & E1 & E2). do 6 right.
    destruct (poll_result P s (poll_call u) s1 _ (ai_reach P a I s Es) (conj (proj1 W) Logic.I) eq_refl E1) as (R1 & N1 & q' & [= <-] & B).
    assert (p0 < npeers s1) as Hp by (destruct Hq as [(-> & _)|(-> & _)]; cbn [result_peer] in B; unfold npeers in *; lia).
    destruct W as (Wp & Wc & Wt & _). destruct Hq as [(-> & ->)|(-> & ->)].
    + assert (valid (next_call u (OInitiate p0 (u_tx u))) s1) as V by (split; cbn; auto).
      pose proof (exec_step P _ s1 s' _ (reachable_inv P _ R1) V E2) as St.
      remember (Err er) as rr eqn:Err. remember (next_call u (OInitiate p0 (u_tx u))) as c eqn:Ec.
      destruct St; subst c; cbn [next_call c_op] in *; try discriminate. exists s1, q. split; [exact R1|exact H1].
    + exfalso. assert (valid (next_call u (ORetransmit p0 (u_tx u))) s1) as V by (split; cbn; auto).
      destruct R1 as (s0 & h & I0 & Rn).
      destruct (C48_retransmission_repeats P s0 h s1 _ p0 (u_tx u) s' _ I0 Rn V eq_refl E2) as (_ & [(m & _ & K)|(x & X & H & _)]).
      * destruct K as [(_ & _ & K)|(_ & _ & k & _ & K)]; discriminate.
      * assert (valid (poll_call u) s) as Vp by (split; [exact Wp|exact Logic.I]).
        destruct (poll_cases P _ s s1 _ (reachable_inv P _ (ai_reach P a I s Es)) Vp eq_refl E1)
          as [(d & [=] & _)|(r & p & y & y' & j & [= <-] & Hrp & _ & Y & Y' & _ & K & _)].
        cbn [result_peer] in Hrp. injection Hrp as <-.
        destruct K as [(_ & [=] & _)|[(_ & [=] & _)|(Ev & _ & ->)]].
        unfold pe in Y'. rewrite X in Y'. injection Y' as ->.
        revert Ev H. unfold peer_event, retried.
        destruct (p_handshake (drop_hs _ y)) eqn:Hd; [discriminate|].
        unfold retry_due. destruct (ses_dead _ _); [discriminate|]. destruct (init_due _ _); [discriminate|]. cbn [poll_call c_now] in *. rewrite Hd. cbn. intros [=].
  - destruct r as [v|er|]; try discriminate. destruct e0 as [s b|st l]; cbn [ep_send] in F.
    + destruct (negb _); [discriminate|]. destruct (u_sends u b s) eqn:Us; [discriminate|]. right. left. eauto.
    + destruct l as [|b l].
      { do 5 right. left. exists x0, (Discovery st []). split; [eapply nth_error_In; eauto|]. auto. }
      destruct (io_sockets (a_io a)) as [|n] eqn:Sk.
      { do 5 right. left. exists x0, (Discovery st (b :: l)). split; [eapply nth_error_In; eauto|]. auto. }
      right. left. cbn [length] in F. rewrite !cycle_cons in F. cbn [try_addrs try_sockets] in F.
      destruct (nth_error (b :: l) (fst st mod S (length l))) as [z|] eqn:Z.
      2:{ apply nth_error_None in Z. pose proof (Nat.mod_upper_bound (fst st) (S (length l)) ltac:(lia)). cbn [length] in Z. lia. }
      destruct (u_sends u z (snd st mod S n)) eqn:Us; [discriminate|]. eauto.
  - destruct r as [v|er|]; try discriminate.
    destruct (output_spec P u p0 Stale _ s' a t _ Hp L O) as (sp & x & _ & X & _ & _ & _ & B).
    destruct (u_file u); [|auto]. destruct (u_line u); [|auto]. destruct (u_psk u); [|auto 6].
    destruct (B eq_refl eq_refl eq_refl); discriminate.
  - left. eauto.
  - right. left. eauto.
  - destruct r as [v|er|]; try discriminate.
    destruct (output_spec P u p0 Exchanged k s' a' t2 _ Hp L O) as (sp & x & _ & X & _ & _ & _ & B).
    destruct (u_file u); [|auto]. destruct (u_line u); [|auto]. destruct (u_psk u); [|auto 6].
    destruct (B eq_refl eq_refl eq_refl); discriminate.
Qed.
Print Assumptions C59_turn_errors_partial.

(** Datagrams alone stop the server: eleven datagrams from an address to which the system
    refuses to send (such as one without route) that are answered: here one message that a peer
    once sent, over and over, while everything else works. *)
Definition hostZ : sockaddr := V4 [xf0; x00; x00; x01] 1.
Definition spoofed (t : time) (load : bool) (rx : bytes) : turn :=
  {| u_poll := (t, Demo.coin xbb); u_ops := []; u_supply := []; u_load := load; u_recv := RDatagram rx 0 hostZ;
     u_call := (t, Demo.coin xbb); u_tx := Demo.tx; u_random := repeat x55 32;
     u_sends := fun b _ => negb (sockaddr_eqb b hostZ);
     u_file := true; u_line := true; u_psk := true |}.

Definition run6 := sim [XAdd pA (Some 8) None None; XTurn (secs 1) xab false [] RNothing true] newB.
Definition end6 := Eval vm_compute in end_of run6.
Lemma end6_eq : option_map snd run6 = Some end6. Proof. vm_compute. reflexivity. Qed.
Lemma end6_settled : settled Demo.P end6.
Proof. eapply end_settled; [|exact end6_eq]. reflexivity. Qed.
Theorem C59_datagrams_stop_server_refuted :
  settled Demo.P end6 /\ forall load, let u := spoofed (secs 2) load Demo.m1 in
  turn_ok u end6 /\ u_ops u = [] /\ u_supply u = [] /\ u_recv u = RDatagram Demo.m1 0 hostZ /\
  (forall b s, u_sends u b s = true <-> b <> hostZ) /\
  u_file u = true /\ u_line u = true /\ u_psk u = true /\
  snd (app_loop Demo.P 0 (repeat u 10) end6) = StillRunning /\
  snd (app_loop Demo.P 0 (repeat u 11) end6) = GaveUp.
Proof.
  split; [exact end6_settled|]. intros load u. split.
  { unfold turn_ok, u. cbn [spoofed u_poll u_call u_tx u_recv fst snd].
    split; [apply Demo.wf_coin|]. split; [apply Demo.wf_coin|]. split; [apply Demo.leb_le_c; vm_compute; reflexivity|].
    apply Demo.leb_le_c. vm_compute. reflexivity. }
  do 3 (split; [reflexivity|]). split.
  { intros b s. unfold u. cbn [spoofed u_sends]. rewrite Bool.negb_true_iff. split.
    - intros H ->. rewrite (proj2 (sockaddr_eqb_eq hostZ hostZ) eq_refl) in H. discriminate.
    - intros H. destruct (sockaddr_eqb b hostZ) eqn:E; [|reflexivity]. apply sockaddr_eqb_eq in E. contradiction. }
  do 3 (split; [reflexivity|]). unfold u. destruct load; split; vm_compute; reflexivity.
Qed.
Print Assumptions C59_datagrams_stop_server_refuted.

(** * C64 *)

(** The calls of a turn that hand a datagram to the handshake engine. *)
Definition from_network (x : call * res err outcome) : bool :=
  match c_op (fst x) with OMsg _ _ | OLoad _ _ _ => true | _ => false end.

Lemma prelude_silent u cs0 : prelude u cs0 -> filter from_network cs0 = [].
Proof. intros [->|(d & ->)]; reflexivity. Qed.

Lemma handles_network u rx sock from c q : handles u rx sock from c -> from_network (c, q) = true.
Proof. intros (_ & E). unfold from_network. cbn [fst]. rewrite E. destruct (u_load u); reflexivity. Qed.

(** In every turn the engine is given at most one datagram: the one received in the turn,
    unchanged, and as a message under load, with the identifier of the socket and the sender,
    exactly if the server was found to be under load. *)
Theorem C64_datagram_unchanged : forall P a u a' cs t r, settled P a -> turn_ok u a ->
  app_turn P u a = (a', cs, t, r) ->
  filter from_network cs = [] \/
  exists rx sock from c q, filter from_network cs = [(c, q)] /\ u_recv u = RDatagram rx sock from /\
    c_op c = if u_load u then OLoad rx (u_tx u) (endpoint_bytes (N.of_nat sock) from) else OMsg rx (u_tx u).
Proof.
  intros P a u a' cs t r S W E. pose proof (turn_digest P u a a' cs t r (settled_inv P a S) W E) as D. clear E.
  assert (forall cs0 rx sock from c q, prelude u cs0 -> handles u rx sock from c ->
    filter from_network (cs0 ++ [(c, q)]) = [(c, q)] /\
    forall y, from_network y = false -> filter from_network (cs0 ++ [(c, q); y]) = [(c, q)]) as K.
  { intros cs0 rx sock from c q Pr Hc. split; [|intros y Hy]; rewrite filter_app, (prelude_silent u cs0 Pr); cbn [List.app filter];
      rewrite (handles_network u rx sock from c q Hc); [reflexivity|]. now rewrite Hy. }
  destruct D as [p x q X He Hq Ep Ei|p x q o e er X He Hq Ep Ei Hx|p x q o e e' m t r X He Hq F Ep Ei
    |p x s' t r X Es Hp L O Ep Ei|cs0 r Pr Ep Hr Hfl Hterm Hdg|rx sock from cs0 c e Pr Hc Ep|rx sock from cs0 c h m Pr Hc Ep Hm Hu
    |rx sock from cs0 c h t1 Pr Hc Ep Hy He|rx sock from cs0 c h t1 s' p x k t2 r Pr Hc Hy He Es Hp L X Ep Hk O].
  - left. reflexivity.
  - left. destruct Hq as [(_ & ->)|(_ & ->)]; reflexivity.
  - left. destruct Hq as [(_ & ->)|(_ & ->)]; reflexivity.
  - left. reflexivity.
  - left. eapply prelude_silent; eauto.
  - right. exists rx, sock, from, c, (Err e). split; [eapply K; eauto|exact Hc].
  - right. exists rx, sock, from, c, (Ok (RHandled h)). split; [eapply K; eauto|exact Hc].
  - right. exists rx, sock, from, c, (Ok (RHandled h)). split; [eapply K; eauto|exact Hc].
  - right. exists rx, sock, from, c, (Ok (RHandled h)). split; [eapply K; eauto|exact Hc].
Qed.
Print Assumptions C64_datagram_unchanged.

(** Conversely a datagram that is received while there is a handshake engine is given to it,
    unless the turn was spent on something the engine had asked for (then nothing has been
    received, 1319-1342). *)
Theorem C64_datagram_reaches_engine : forall P a u a' cs t r, settled P a -> turn_ok u a ->
  app_turn P u a = (a', cs, t, r) ->
  forall rx sock from s', u_recv u = RDatagram rx sock from -> r <> Panic -> a_site a' = Product s' ->
  length (filter from_network cs) = 1 \/
  exists q, In (poll_call u, Ok (RPolled q)) cs /\ forall d, q <> Sleep d.
Proof.
  intros P a u a' cs t r S W E rx0 sock0 from0 s0 Hr0 Hn Hs0.
  pose proof (turn_digest P u a a' cs t r (settled_inv P a S) W E) as D. clear E.
  assert (forall cs0 rx sock from c q, prelude u cs0 -> handles u rx sock from c ->
    length (filter from_network (cs0 ++ [(c, q)])) = 1 /\
    forall y, from_network y = false -> length (filter from_network (cs0 ++ [(c, q); y])) = 1) as K.
  { intros cs0 rx sock from c q Pr Hc. split; [|intros y Hy]; rewrite filter_app, (prelude_silent u cs0 Pr); cbn [List.app filter];
      rewrite (handles_network u rx sock from c q Hc); [reflexivity|]. now rewrite Hy. }
  destruct D as [p x q X He Hq Ep Ei|p x q o e er X He Hq Ep Ei Hx|p x q o e e' m t r X He Hq F Ep Ei
    |p x s' t r X Es Hp L O Ep Ei|cs0 r Pr Ep Hr Hfl Hterm Hdg|rx sock from cs0 c e Pr Hc Ep|rx sock from cs0 c h m Pr Hc Ep Hm Hu
    |rx sock from cs0 c h t1 Pr Hc Ep Hy He|rx sock from cs0 c h t1 s' p x k t2 r Pr Hc Hy He Es Hp L X Ep Hk O].
  - right. exists q. split; [now left|]. intros d. destruct Hq as [->| ->]; discriminate.
  - right. exists q. split; [now left|]. intros d. destruct Hq as [(-> & _)|(-> & _)]; discriminate.
  - right. exists q. split; [now left|]. intros d. destruct Hq as [(-> & _)|(-> & _)]; discriminate.
  - right. exists (DeleteKey p). split; [now left|discriminate].
  - now elim (Hdg Hn rx0 sock0 from0 s0 Hr0).
  - left. eapply K; eauto.
  - left. eapply K; eauto.
  - left. eapply K; eauto.
  - left. eapply K; eauto.
Qed.
Print Assumptions C64_datagram_reaches_engine.

(** The server of the previous section, given the first message of a handshake. *)
Example C64_nonvacuous : settled Demo.P end6 /\ forall load, let u := spoofed (secs 2) load Demo.m1 in
  turn_ok u end6 /\
  match app_turn Demo.P u end6 with
  | (a', cs, _, r) => r <> Panic /\ (exists s', a_site a' = Product s') /\ length (filter from_network cs) = 1
  end.
Proof.
  split; [exact end6_settled|]. intros load u. split.
  { apply C59_datagrams_stop_server_refuted. }
  unfold u. clear u. pose (b := match app_turn Demo.P (spoofed (secs 2) load Demo.m1) end6 with
    | (a', cs, _, r) => match r with Panic => false | _ => true end &&
        match a_site a' with Product _ => true | _ => false end && (length (filter from_network cs) =? 1) end).
  assert (b = true) as Hb by (unfold b; destruct load; vm_compute; reflexivity). unfold b in Hb. clear b.
  destruct (app_turn _ _ _) as [[[a' cs] t] r]. apply andb_prop in Hb. destruct Hb as (Hb & Hl). apply andb_prop in Hb. destruct Hb as (Hr & Hs).
  split; [destruct r; discriminate|]. split; [destruct (a_site a'); try discriminate; eauto|]. now apply Nat.eqb_eq.
Qed.
