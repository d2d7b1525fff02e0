(** C111: an attacker who has every static key and every pre-shared key, and only listens.  If the messages of a handshake reach
    the other side as they were sent, the keys that come out of it are secret, whatever long-term keys the attacker had
    before.  (C90 and C92 say what protects a handshake against an attacker who changes messages; C93 is about keys that are lost
    afterwards.) *)
From Verif Require Import Base ConstTime Prims HashDomains Wire Server Protocol Wp Inv Rules Calls PollRules System Trans.
From Verif Require Import Sym SymSec PSym PSymLink SymRun PSymRun.

(** The initiator: it has accepted a RespHello that an agent [B] made, in answer to this initiator's InitHello.  Nothing is said
    about static and pre-shared keys, nor about which peer [B] took the InitHello to come from. *)
Theorem C111_initiator_listened_to cfg tr run A p m ck run' B k q :
  valid cfg tr -> initiator_has tr run A p m ck ->
  answered cfg tr run' B k (fst (s_init run A p)) q m ->
  ~ revealed tr (NEsk run) -> ~ revealed tr (NCoin run' false) -> ~ revealed tr (NBk B k) ->
  keys_secret cfg tr (e_alg p) ck.
Proof.
  intros V [IE (ic & E)] (bno & g & ck' & I & S) R1 R2 R3.
  rewrite (PSym.conf_chain _ _ _ _ _ _ E).
  destruct (resp_spec _ _ _ _ _ _ _ _ _ _ S) as (_ & _ & _ & _ & _ & Z1 & _ & Z3 & _).
  apply secret_of_not_pub; [exact V| |].
  - intros F. rewrite Forall_forall in F.
    apply (not_pub_shk cfg tr true (NEsk run) (NCoin run' false)); auto. apply F. apply in_or_app. left.
    unfold initiator_items. apply in_or_app. right. apply in_or_app. left. unfold answer_items.
    do 3 right. left. rewrite Z3. change (y_epki (fst (s_init run A p))) with (Pk true (Nm (NEsk run))). apply kdec_own.
  - intros Lk. destruct (initiator_leak _ _ _ _ _ _ _ V Lk) as (r2 & B2 & k2 & b2 & m2 & I2 & Q & _ & Sr & R); [cbn; lia|].
    rewrite Z1 in Sr. assert (run' = r2) by congruence. subst r2.
    destruct (resp_unique _ _ _ _ _ _ _ _ _ _ _ _ _ V I I2) as (<- & <- & _). exact (R3 R).
Qed.
Print Assumptions C111_initiator_listened_to.

(** The responder: it has accepted the InitConf [ic] that the initiator [A] made from this responder's answer to its InitHello.
    Then both have the same chaining key, and its keys are secret. *)
Theorem C111_responder_listened_to cfg tr run A p m ic cka run' B k q q' ck :
  valid cfg tr -> In (EConf run A p m) tr -> s_conf run A p m = Some (ic, cka) ->
  answered cfg tr run' B k (fst (s_init run A p)) q m ->
  responder_has cfg tr B k q' ic ck ->
  ~ revealed tr (NEsk run) -> ~ revealed tr (NCoin run' false) -> ~ revealed tr (NBk B k) ->
  q' = q /\ ck = cka /\ keys_secret cfg tr (e_alg q) ck.
Proof.
  intros V IE E An (g3 & ctr & I3 & D) R1 R2 R3.
  assert (Ha : initiator_has tr run A p m cka) by (split; [exact IE|exists ic; exact E]).
  assert (Sec := C111_initiator_listened_to _ _ _ _ _ _ _ _ _ _ _ V Ha An R1 R2 R3).
  destruct An as (bno & g & ck' & I & S).
  destruct (conf_spec _ _ _ _ _ _ E) as (pt & _ & T1 & Y3 & Y4 & Y5 & Y6 & Y7). cbn zeta in T1, Y6, Y7.
  fold (initiator_items run A p m) in T1, Y6, Y7.
  destruct (resp_spec _ _ _ _ _ _ _ _ _ _ S) as (_ & _ & F & G & _ & _ & _ & _ & _ & _ & Z6 & Z7).
  destruct (done_spec _ _ _ _ _ _ _ D) as (n & b' & c0 & pt' & W1 & F' & W2 & W3). cbn zeta in W2, W3.
  rewrite Y5 in W1. assert (W0 := W1). rewrite Z6 in W0. unfold s_biscuit in W0.
  assert (Q : s_pid (e_alg q) (e_pk q) = s_pid (e_alg q') (e_pk q')) by congruence.
  assert (c0 = ck') by congruence. clear W0. rewrite <- Q, F in F'. assert (q' = q) by congruence. subst q' c0.
  split; [reflexivity|].
  rewrite Z7 in T1. unfold s_tag, s_key in T1.
  assert (X : s_ckmix g ck' (z_biscuit m) = chain (e_alg p) (e_pk p) (initiator_items run A p m)) by congruence.
  assert (Gp : e_alg p = g) by congruence. clear T1.
  assert (Ec : ck = cka).
  { rewrite W3, Y7, Y5, Y3, Y4, G, X, Gp. unfold conf_items.
    change [z_auth m; z_sidi m; z_sidr m; w_auth ic] with ([z_auth m; z_sidi m; z_sidr m] ++ [w_auth ic]).
    rewrite app_assoc, chain_snoc. f_equal. rewrite chain_app. rewrite Z7, X, Gp. reflexivity. }
  split; [exact Ec|]. rewrite Ec, G, <- Gp. exact Sec.
Qed.
Print Assumptions C111_responder_listened_to.

(** * The servers *)
Section Runs.
Context (P : prims) (OK : correct P) (v : name -> bytes) (cfg : nat -> list entry).
Notation history := (history P v cfg).
Notation ev := (ev P v).

(** The handshake that agent [A] finished as initiator, with peer entry [q], by accepting [m], or as responder, by accepting
    [ic] with biscuit key [k], was only listened to: the messages that were accepted are those an agent has sent for
    it. *)
Definition listened_as_initiator (tr : list Sym.event) (run A : nat) (q : entry) (m : s_rh) : Prop :=
  exists run' B k q', answered cfg tr run' B k (fst (s_init run A q)) q' m.
Definition listened_as_responder (tr : list Sym.event) (A k : nat) (ic : s_ic) : Prop :=
  exists run B p m ck, In (EConf run B p m) tr /\ s_conf run B p m = Some (ic, ck) /\
    exists run' q', answered cfg tr run' A k (fst (s_init run B p)) q' m.

(** A session of a server comes from a finished handshake; its key is secret if that handshake was only listened to, even though the
    attacker may have been given all static and pre-shared keys at any time. *)
Theorem C111_sessions_listened_to W tr A i x u :
  history W tr -> nth_error (s_peers (W A)) i = Some x -> p_session x = Some u ->
  only_long_term tr ->
  exists q ck, nth_error (cfg A) i = Some q /\ se_ck u = ev ck /\
    match se_role u with
    | Initiator => exists run m, initiator_has tr run A q m ck /\
        (listened_as_initiator tr run A q m -> keys_secret cfg tr (e_alg q) ck)
    | Responder => exists k m, responder_has cfg tr A k q m ck /\
        (listened_as_responder tr A k m -> keys_secret cfg tr (e_alg q) ck)
    end.
Proof.
  intros Hy X U OL. destruct (C95_sessions P v cfg W tr A i x u Hy X U) as (q & ck & N & _ & _ & E5 & R).
  destruct (C95_histories_explained P v cfg W _ Hy) as [V _].
  exists q, ck. split; [exact N|]. split; [exact E5|]. destruct (se_role u).
  - destruct R as (run & m & R). exists run, m. split; [exact R|]. intros (run' & B & k & q' & An).
    eapply C111_initiator_listened_to; eauto; intros Y; exact (OL _ Y).
  - destruct R as (k & m & R). exists k, m. split; [exact R|].
    intros (run & B & p & rh & cka & I & S & run' & q' & An).
    destruct (C111_responder_listened_to cfg tr run B p rh m cka run' A k q' q ck) as (-> & _ & Z); auto; intros Y; exact (OL _ Y).
Qed.
End Runs.
Print Assumptions C111_sessions_listened_to.

(** * Example *)

(** The attacker has the static keys of both agents and their pre-shared key before anything happens; the exchange that it then
    listens to gives both sides keys it does not know. *)
Example C111_example : exists tr rh ic ck,
  let tr' := (tr ++ [EReveal (NStatic 0); EReveal (NStatic 1); EReveal (NPsk 0)])%list in
  valid ex_cfg tr' /\
  initiator_has tr' 0 0 (ex_entry 1) rh ck /\ responder_has ex_cfg tr' 1 0 (ex_entry 0) ic ck /\
  answered ex_cfg tr' 1 1 0 (fst (s_init 0 0 (ex_entry 1))) (ex_entry 0) rh /\
  s_conf 0 0 (ex_entry 1) rh = Some (ic, ck) /\ only_long_term tr' /\
  keys_secret ex_cfg tr' Shake ck.
Proof.
  assert (F : s_find (ex_cfg 1) (s_pid (e_alg (ex_entry 0)) (e_pk (ex_entry 0))) = Some (ex_entry 0)).
  { change (ex_cfg 1) with [ex_entry 0]. unfold s_find. cbn [find]. rewrite term_eqb_refl. reflexivity. }
  set (t0 := [EReveal (NStatic 0); EReveal (NStatic 1); EReveal (NPsk 0)]).
  destruct (C91_honest_run ex_cfg t0 0 1 (ex_entry 1) (ex_entry 0) 0 1 0 []) as (rh & ic & ck & ctr & d & V & I1 & I2 & An & S);
    try exact F; try reflexivity; try (left; reflexivity); try discriminate.
  { do 3 apply v_reveal. apply v_nil. }
  1,2: split; intros; intros [Y|[Y|[Y|[]]]]; discriminate Y.
  change (e_alg (ex_entry 1)) with Shake in *.
  set (t1 := [EFin 0 0 (ex_entry 1) rh ctr d; EDone 1 0 Shake ic ctr; EConf 0 0 (ex_entry 1) rh;
              EResp 1 1 0 [] Shake (fst (s_init 0 0 (ex_entry 1))); EInit 0 0 (ex_entry 1)]).
  match type of V with valid _ ?t => change t with (t1 ++ t0)%list in * end.
  exists t1, rh, ic, ck. cbn zeta. fold t0.
  assert (OL : only_long_term (t1 ++ t0)).
  { intros n X. unfold revealed, t1, t0 in X. cbn [List.app] in X.
    repeat (destruct X as [X|X]; [try discriminate X; try (injection X as <-; exact I)|]). destruct X. }
  repeat (split; [assumption|]).
  apply (C111_initiator_listened_to ex_cfg (t1 ++ t0) 0 0 (ex_entry 1) rh ck 1 1 0 (ex_entry 0)); auto;
    intros Y; exact (OL _ Y).
Qed.

(** The servers of the demonstration, with all long-term keys in the hands of the attacker: the initiator's session comes from a
    handshake that was only listened to. *)
Example C111_servers_example : exists W tr x u run m ck,
  history Toy.prims ex_v ex_cfg W tr /\ revealed tr (NStatic 0) /\ revealed tr (NStatic 1) /\ revealed tr (NPsk 0) /\
  only_long_term tr /\ nth_error (s_peers (W 0)) 0 = Some x /\ p_session x = Some u /\ se_role u = Initiator /\
  initiator_has tr run 0 (ex_entry 1) m ck /\ se_ck u = PSymLink.ev Toy.prims ex_v ck /\
  listened_as_initiator ex_cfg tr run 0 (ex_entry 1) m /\ keys_secret ex_cfg tr Shake ck.
Proof.
  destruct C96_example as (W & t0 & key & Hy & W0 & W1 & K1 & K0 & NB & OL & _ & _ & a & b & Ra & _ & -> & _).
  destruct (nth_error (s_peers (W 0)) 0) as [x|] eqn:X; [|discriminate].
  destruct (p_session x) as [u|] eqn:U; [|discriminate].
  assert (Ro : se_role u = Initiator) by (cbn [option_map] in Ra; congruence).
  destruct (C96_session_agreement Toy.prims ex_v ex_cfg W t0 0 0 x u (ex_entry 1) Hy X U eq_refl K1 NB) as (B & q' & _ & _ & _ & _ & Z).
  rewrite Ro in Z. destruct Z as (run & m & run' & k & (bno & g & c & I & S) & ck & [I2 Hc] & Ec).
  set (tr := EReveal (NStatic 0) :: EReveal (NStatic 1) :: EReveal (NPsk 0) :: t0).
  assert (L : incl t0 tr) by (intros y Y; do 3 right; exact Y).
  assert (Hy' : history Toy.prims ex_v ex_cfg W tr) by (do 3 apply h_reveal; exact Hy).
  assert (OL' : only_long_term tr).
  { intros n [Y|[Y|[Y|Y]]]; try (injection Y as <-; exact Logic.I). exact (OL n Y). }
  assert (Ha : initiator_has tr run 0 (ex_entry 1) m ck) by (split; [apply L, I2|exact Hc]).
  assert (An : answered ex_cfg tr run' B k (fst (s_init run 0 (ex_entry 1))) q' m) by (exists bno, g, c; split; [apply L, I|exact S]).
  exists W, tr, x, u, run, m, ck.
  split; [exact Hy'|]. split; [left; reflexivity|]. split; [right; left; reflexivity|]. split; [do 2 right; left; reflexivity|].
  split; [exact OL'|]. split; [exact X|]. split; [exact U|]. split; [exact Ro|]. split; [exact Ha|]. split; [exact Ec|].
  split; [exists run', B, k, q'; exact An|].
  destruct (C95_histories_explained _ _ _ _ _ Hy') as [V _].
  apply (C111_initiator_listened_to ex_cfg tr run 0 (ex_entry 1) m ck run' B k q' V Ha An); intros Y; exact (OL' _ Y).
Qed.

(** * Own keys lost *)

(** C91 asks for the keys of the peer, not for one's own: an agent whose static key and pre-shared key the attacker has from the
    start still cannot be fooled about its peer.  Here agent 0 is the initiator and its keys are lost. *)
Example C91_initiator_keys_lost_example : exists tr2 tr1 rh,
  let tr := (tr2 ++ EConf 0 0 (ex_entry 1) rh :: tr1)%list in
  valid ex_cfg tr /\ revealed tr1 (NStatic 0) /\ revealed tr1 (NPsk 0) /\
  pk_safe tr1 (ex_entry 1) (NCoin 0 false) /\ biscuits_safe tr1 0 (ex_entry 1).
Proof.
  assert (F : s_find (ex_cfg 1) (s_pid (e_alg (ex_entry 0)) (e_pk (ex_entry 0))) = Some (ex_entry 0)).
  { change (ex_cfg 1) with [ex_entry 0]. unfold s_find. cbn [find]. rewrite term_eqb_refl. reflexivity. }
  set (t0 := [EReveal (NStatic 0); EReveal (NPsk 0)]).
  destruct (C91_honest_run ex_cfg t0 0 1 (ex_entry 1) (ex_entry 0) 0 1 0 []) as (rh & ic & ck & ctr & d & V & _);
    try exact F; try reflexivity; try (left; reflexivity); try discriminate.
  { do 2 apply v_reveal. apply v_nil. }
  1,2: split; intros; intros [Y|[Y|[]]]; discriminate Y.
  exists [EFin 0 0 (ex_entry 1) rh ctr d; EDone 1 0 Shake ic ctr],
    (EResp 1 1 0 [] Shake (fst (s_init 0 0 (ex_entry 1))) :: EInit 0 0 (ex_entry 1) :: t0), rh.
  split; [exact V|]. split; [do 2 right; left; reflexivity|]. split; [do 3 right; left; reflexivity|].
  split.
  - exists 1. split; [reflexivity|]. split; intros [Y|[Y|[Y|[Y|[]]]]]; discriminate Y.
  - intros r B k b g m _ _ _ [Y|[Y|[Y|[Y|[]]]]]; discriminate Y.
Qed.

(** The same for the responder, agent 1. *)
Example C91_responder_keys_lost_example : exists tr2 tr1 ic ctr,
  let tr := (tr2 ++ EDone 1 0 Shake ic ctr :: tr1)%list in
  valid ex_cfg tr /\ revealed tr1 (NStatic 1) /\ revealed tr1 (NPsk 0) /\
  ~ revealed tr1 (NBk 1 0) /\ (forall run, pk_safe tr1 (ex_entry 0) (NCoin run true)).
Proof.
  assert (F : s_find (ex_cfg 1) (s_pid (e_alg (ex_entry 0)) (e_pk (ex_entry 0))) = Some (ex_entry 0)).
  { change (ex_cfg 1) with [ex_entry 0]. unfold s_find. cbn [find]. rewrite term_eqb_refl. reflexivity. }
  set (t0 := [EReveal (NStatic 1); EReveal (NPsk 0)]).
  destruct (C91_honest_run ex_cfg t0 0 1 (ex_entry 1) (ex_entry 0) 0 1 0 []) as (rh & ic & ck & ctr & d & V & _);
    try exact F; try reflexivity; try (left; reflexivity); try discriminate.
  { do 2 apply v_reveal. apply v_nil. }
  1,2: split; intros; intros [Y|[Y|[]]]; discriminate Y.
  exists [EFin 0 0 (ex_entry 1) rh ctr d],
    (EConf 0 0 (ex_entry 1) rh :: EResp 1 1 0 [] Shake (fst (s_init 0 0 (ex_entry 1))) :: EInit 0 0 (ex_entry 1) :: t0), ic, ctr.
  split; [exact V|]. split; [do 3 right; left; reflexivity|]. split; [do 4 right; left; reflexivity|].
  split.
  - intros [Y|[Y|[Y|[Y|[Y|[]]]]]]; discriminate Y.
  - intros run. exists 0. split; [reflexivity|]. split; intros [Y|[Y|[Y|[Y|[Y|[]]]]]]; discriminate Y.
Qed.
