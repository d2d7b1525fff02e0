(** C95: any number of servers, called in any order by an environment that delivers messages an attacker can make, go through a
    run of the symbolic model, unless a ciphertext is forged or a hash collides.  C96: what C90 to C93 say about such runs is
    then true of the keys in the servers. *)
From Verif Require Import Base ConstTime Prims HashDomains Wire Server Protocol Wp Inv Rules Calls PollRules System Trans.
From Verif Require Import Sym SymSec PSym PSymLink SymRun.

Definition put (A : nat) (s : srv) (W : nat -> srv) : nat -> srv := fun B => if Nat.eqb A B then s else W B.

Section Runs.
Context (P : prims) (OK : correct P).
(** The bytes that were drawn or configured, and the peers every agent will have. *)
Context (v : name -> bytes) (cfg : nat -> list entry).
Notation ev := (ev P v).

(** A server as [CryptoServer::new] makes it, protocol.rs:1175-1196, with the keys of agent [A]. *)
Definition starts (A : nat) (s : srv) : Prop :=
  exists i j k0 k1 hk, s = server_new (ev (skey A)) (ev (pkey A)) (v (NBk A i)) (v (NBk A j)) k0 k1 hk.

(** The servers [W] are in a state that the symbolic run [tr] explains. *)
Definition explained (W : nat -> srv) (tr : list Sym.event) : Prop :=
  Sym.valid cfg tr /\ forall A, inv P (W A) /\ agent_ok P v cfg A (W A) tr.

(** Histories of all servers, each with a symbolic run: server [A] is called; the attacker is given a value, or the output key of
    a finished handshake. *)
Inductive history : (nat -> srv) -> list Sym.event -> Prop :=
| h_start W : (forall A, starts A (W A)) -> history W []
| h_call W tr A run c M s' r tr' : history W tr ->
    allowed P v cfg A run tr c M (W A) -> exec P c (W A) = (s', r) ->
    (* the run goes on by at most one event, and has the message that was sent *)
    extends P v cfg A (W A) s' run (initiated c) M tr tr' -> explained (put A s' W) tr' -> (forall b, output r = Some b -> spoken P v cfg tr' b) ->
    history (put A s' W) tr'
| h_reveal W tr n : history W tr -> history W (EReveal n :: tr)
| h_osk W tr g ck ds : history W tr -> completed cfg tr g ck -> history W (EOsk g ck (s_ds g ds) :: tr).

Theorem C95_histories_explained W tr : history W tr -> explained W tr.
Proof.
  intros Hy. induction Hy as [W St|W tr A run c M s' r tr' Hy IH Al E Ex Ep Sp|W tr n Hy [V IH]|W tr g ck ds Hy [V IH] C].
  - split; [apply v_nil|]. intros A. destruct (St A) as (i & j & k0 & k1 & hk & ->).
    split; [apply initial_inv; repeat eexists|]. constructor.
    + split; reflexivity.
    + intros n x X. unfold pe in X. destruct n; discriminate.
    + intros b. destruct b; [exists j|exists i]; reflexivity.
  - exact Ep.
  - split; [now apply v_reveal|]. intros A. destruct (IH A) as [I G]. split; [exact I|].
    eapply agent_ok_mono; [|exact G]. now apply grows_cons.
  - split; [now apply v_osk|]. intros A. destruct (IH A) as [I G]. split; [exact I|].
    eapply agent_ok_mono; [|exact G]. now apply grows_cons.
Qed.

(** Whatever a server does in a call, the run can be continued: the extra conditions of [h_call] exclude nothing. *)
Theorem C95_every_call_explained W tr A run c M s' r :
  cfg_ok cfg -> history W tr -> allowed P v cfg A run tr c M (W A) -> exec P c (W A) = (s', r) ->
  exists tr', extends P v cfg A (W A) s' run (initiated c) M tr tr' /\ history (put A s' W) tr' /\ forall b, output r = Some b -> spoken P v cfg tr' b.
Proof.
  intros C Hy Al E. destruct (C95_histories_explained W tr Hy) as [V K]. destruct (K A) as [I G].
  destruct (step_sim P OK v cfg A run tr c M (W A) s' r C V I G Al E) as (tr' & Ex & V' & G' & Sp).
  exists tr'. split; [exact Ex|]. split; [|exact Sp]. eapply h_call; eauto.
  split; [exact V'|]. intros B. unfold put. destruct (Nat.eqb_spec A B) as [->|N].
  - split; [|exact G']. eapply exec_inv; eauto. apply Al.
  - destruct (K B) as [IB GB]. split; [exact IB|]. eapply agent_ok_mono; [|exact GB]. eapply extends_grows; [|exact Ex]. congruence.
Qed.

(** Every session of every server has the key of a finished handshake of the run. *)
Theorem C95_sessions W tr A i x u :
  history W tr -> nth_error (s_peers (W A)) i = Some x -> p_session x = Some u ->
  exists q ck, nth_error (cfg A) i = Some q /\ is_entry P v x q /\ se_alg u = e_alg q /\ se_ck u = ev ck /\
    match se_role u with
    | Initiator => exists run m, initiator_has tr run A q m ck
    | Responder => exists k m, responder_has cfg tr A k q m ck
    end.
Proof.
  intros Hy X U. destruct (C95_histories_explained W tr Hy) as [_ K]. destruct (K A) as [_ G].
  destruct (ao_peers _ _ _ _ _ _ G i x X) as (q & N & Y). destruct (po_ses _ _ _ _ _ _ _ Y u U) as (E1 & ck & E2 & R).
  exists q, ck. split; [exact N|]. split; [exact (po_entry _ _ _ _ _ _ _ Y)|]. auto.
Qed.

(** * C96 *)

(** The keys of the peer entry [q] are in order: a pre-shared key the attacker was not given, or the public key of an agent whose
    secret key the attacker was not given, and no coins of encapsulations. *)
Definition keys_in_order (tr : list Sym.event) (q : entry) : Prop :=
  psk_safe tr q \/
  exists B, e_pk q = pkey B /\ ~ revealed tr (NStatic B) /\ forall run b, ~ revealed tr (NCoin run b).
Definition no_biscuit_key (tr : list Sym.event) : Prop := forall B k, ~ revealed tr (NBk B k).

Lemma order_pk tr q n b : keys_in_order tr q -> pk_safe tr q (NCoin n b) \/ psk_safe tr q.
Proof. intros [X|(B & E & R & C)]; [now right|]. left. exists B. auto. Qed.
Lemma order_before tr tr' q : incl tr' tr -> keys_in_order tr q -> keys_in_order tr' q.
Proof.
  intros L [X|(B & E & R & C)]; [left; eapply psk_safe_before; eauto|]. right. exists B. split; [exact E|].
  split; [intros Z; apply R, L, Z|intros run b Z; apply (C run b), L, Z].
Qed.

(** An output key that a server hands out is the value of a term the attacker does not know, unless the attacker was given this
    very key. *)
Theorem C96_output_key_secret W tr A i c s' key q :
  history W tr -> i < length (s_peers (W A)) -> c_op c = OOsk i -> exec P c (W A) = (s', Ok (RKey key)) ->
  nth_error (cfg A) i = Some q -> keys_in_order tr q -> no_biscuit_key tr ->
  exists ck ds, let t := s_osk (e_alg q) ck (s_ds (e_alg q) ds) in
    key = ev t /\ completed cfg tr (e_alg q) ck /\
    (~ In (EOsk (e_alg q) ck (s_ds (e_alg q) ds)) tr -> ~ knows cfg tr t).
Proof.
  intros Hy Lt Eo E Nq KO NB. unfold exec in E. rewrite Eo in E. apply map_ok_run in E. destruct E as (r0 & E & Er).
  destruct (pe_some (W A) i Lt) as [x X]. unfold osk, osk_with_domain_separator, bind, get_peer in E. unfold pe in X.
  rewrite X in E. unfold ret at 1 in E. rewrite X in E.
  destruct (p_session x) as [u|] eqn:U; [|injection E as <- <-; discriminate Er].
  unfold need, ret in E. injection E as <- <-. injection Er as ->.
  destruct (C95_sessions W tr A i x u Hy X U) as (q' & ck & N & (E1 & _ & E3) & E4 & E5 & R).
  assert (q' = q) by congruence. subst q'. exists ck, (p_ds x). cbn zeta.
  split. { rewrite E4, E5, E3. unfold s_osk. cbn [PSymLink.ev]. rewrite ev_ds. reflexivity. }
  destruct (C95_histories_explained W tr Hy) as [V _].
  destruct (se_role u).
  - destruct R as (run & m & R). split.
    { left. destruct R as [I (ic & S)]. exists run, A, q, m, ic. auto. }
    destruct (C90_initiator_secrecy cfg tr run A q m ck V R (order_pk _ _ _ _ KO)) as [_ Z]; [|apply Z].
    intros r B k bno g m' _ _ _ Y. exact (NB B k Y).
  - destruct R as (k & m & R). split.
    { right. destruct R as (g & ctr & I & S). exists A, k, g, m, ctr, q. auto. }
    destruct (C92_responder_secrecy cfg tr A k q m ck V R (NB A k)) as (run & m' & rh & _ & Z).
    apply (Z (order_pk _ _ _ _ KO)).
Qed.

(** A session of a server with peer entry [q]: the agent whose public key this is has taken part, and has the same key if the
    server was the responder; otherwise it has answered this server's InitHello with this RespHello. *)
Theorem C96_session_agreement W tr A i x u q :
  history W tr -> nth_error (s_peers (W A)) i = Some x -> p_session x = Some u ->
  nth_error (cfg A) i = Some q -> keys_in_order tr q -> no_biscuit_key tr ->
  exists B q', e_pk q = pkey B /\ e_pk q' = pkey A /\ e_psk q' = e_psk q /\ e_alg q' = e_alg q /\
    match se_role u with
    | Initiator => exists run m run' k, answered cfg tr run' B k (fst (s_init run A q)) q' m /\
        exists ck, initiator_has tr run A q m ck /\ se_ck u = ev ck
    | Responder => exists run rh ck, initiator_has tr run B q' rh ck /\ se_ck u = ev ck
    end.
Proof.
  intros Hy X U Nq KO NB. destruct (C95_sessions W tr A i x u Hy X U) as (q0 & ck & N & _ & _ & E5 & R).
  assert (q0 = q) by congruence. subst q0. destruct (C95_histories_explained W tr Hy) as [V _].
  destruct (se_role u).
  - destruct R as (run & m & R). assert (R' := R). destruct R' as [I (ic & S)].
    destruct (valid_split cfg _ _ V I) as (t2 & t1 & Et & _).
    assert (L : incl t1 tr). { rewrite Et. intros z Z. apply in_or_app. right. right. exact Z. }
    rewrite Et in V. destruct (C91_initiator_agreement cfg t2 t1 run A q m V) as (B & run' & k & q' & An & P1 & P2 & P3 & P4).
    + apply order_pk. eapply order_before; eauto.
    + intros r B k bno g m' _ _ _ Y. exact (NB B k (L _ Y)).
    + exists B, q'. split; [exact P1|]. split; [exact P2|]. split; [exact P3|]. split; [exact P4|].
      exists run, m, run', k. split; [|exists ck; auto].
      destruct An as (bno & g & ck' & An & S'). exists bno, g, ck'. auto.
  - destruct R as (k & m & g & ctr & I & S).
    destruct (valid_split cfg _ _ V I) as (t2 & t1 & Et & _).
    assert (L : incl t1 tr). { rewrite Et. intros z Z. apply in_or_app. right. right. exact Z. }
    rewrite Et in V. destruct (C91_responder_agreement cfg t2 t1 A k g m ctr V) as (q0 & ck0 & run' & m' & rh & S0 & _ & Z).
    { intros Y. exact (NB A k (L _ Y)). }
    rewrite S in S0. assert (q0 = q) by congruence. assert (ck0 = ck) by congruence. subst q0 ck0.
    destruct Z as (run & B & p & [I' H'] & _ & P1 & P2 & P3 & P4); [apply order_pk; eapply order_before; eauto|].
    exists B, p. split; [exact P2|]. split; [exact P1|]. split; [exact P3|]. split; [exact P4|].
    exists run, rh, ck. split; [|exact E5]. split; [apply L, I'|exact H'].
Qed.
(** What is accepted from an InitConf does not depend on the hash that is tried. *)
Lemma done_same peers B k g g' m q ck q' ck' :
  s_done peers B k g m = Some (q, ck) -> s_done peers B k g' m = Some (q', ck') -> q = q' /\ ck = ck'.
Proof.
  assert (U : forall x, s_unbiscuit B k g (w_sidi m) (w_sidr m) (w_biscuit m) = Some x -> forall y,
    s_unbiscuit B k g' (w_sidi m) (w_sidr m) (w_biscuit m) = Some y -> x = y).
  { unfold s_unbiscuit. destruct (w_biscuit m); try discriminate. unfold sdec.
    intros z. destruct (_ && _)%bool; [|discriminate]. intros E y. destruct (_ && _)%bool; [|discriminate]. congruence. }
  unfold s_done. destruct (s_unbiscuit B k g _ _ _) as [[pid c]|]; [|discriminate].
  destruct (s_unbiscuit B k g' _ _ _) as [[pid' c']|]; [|discriminate].
  specialize (U _ eq_refl _ eq_refl). assert (pid = pid') by congruence. assert (c = c') by congruence. subst pid' c'.
  intros E1 E2. rewrite E1 in E2. split; congruence.
Qed.
(** Nothing of a single handshake and no biscuit key was given to the attacker; static and pre-shared keys may have been. *)
Definition only_long_term (tr : list Sym.event) : Prop :=
  forall n, revealed tr n -> match n with NEsk _ | NCoin _ _ | NBk _ _ => False | _ => True end.

(** Forward secrecy: if the keys were in order while the session was there, its output keys stay secret in all later runs in
    which static keys and pre-shared keys are lost. *)
Theorem C96_forward_secrecy W tr A i x u q W' tr2 :
  history W tr -> nth_error (s_peers (W A)) i = Some x -> p_session x = Some u ->
  nth_error (cfg A) i = Some q -> keys_in_order tr q ->
  history W' (tr2 ++ tr) -> only_long_term (tr2 ++ tr) ->
  exists ck, se_ck u = ev ck /\ keys_secret cfg (tr2 ++ tr) (e_alg q) ck.
Proof.
  intros Hy X U Nq KO Hy' OL. destruct (C95_sessions W tr A i x u Hy X U) as (q0 & ck & N & _ & _ & E5 & R).
  assert (q0 = q) by congruence. subst q0. exists ck. split; [exact E5|].
  destruct (C95_histories_explained W' _ Hy') as [V _].
  destruct (se_role u).
  - destruct R as (run & m & I & (ic & S)).
    destruct (in_split _ _ I) as (a & t1 & ->). rewrite app_assoc in *.
    assert (L : incl t1 (a ++ EConf run A q m :: t1)) by (intros z Z; apply in_or_app; right; right; exact Z).
    assert (L' : incl t1 ((tr2 ++ a) ++ EConf run A q m :: t1)) by (intros z Z; apply in_or_app; right; right; exact Z).
    destruct (C93_initiator_forward_secrecy cfg (tr2 ++ a) t1 run A q m V) as (ck' & B & run' & k & q' & (_ & ic' & S') & _ & _ & Z).
    + apply order_pk. exact (order_before _ _ _ L KO).
    + intros r B k bno g m' _ _ _ Y. exact (OL _ (L' _ Y)).
    + assert (ck' = ck) by congruence. subst ck'. apply Z; intros Y; exact (OL _ Y).
  - destruct R as (k & m & g & ctr & I & S).
    destruct (in_split _ _ I) as (a & t1 & ->). rewrite app_assoc in *.
    assert (L : incl t1 (a ++ EDone A k g m ctr :: t1)) by (intros z Z; apply in_or_app; right; right; exact Z).
    destruct (C93_responder_forward_secrecy cfg (tr2 ++ a) t1 A k g m ctr V) as (q0 & ck0 & run' & m' & rh & (g' & ctr' & _ & S0) & An & Z).
    { intros Y. exact (OL _ Y). }
    destruct (done_same _ _ _ _ _ _ _ _ _ _ S0 S) as (-> & ->).
    destruct Z as (run & B & p & _ & _ & Z); [apply order_pk; eapply order_before; eauto|].
    apply Z; intros Y; exact (OL _ Y).
Qed.
End Runs.
Print Assumptions C95_histories_explained.
Print Assumptions C95_every_call_explained.
Print Assumptions C95_sessions.
Print Assumptions C96_output_key_secret.
Print Assumptions C96_session_agreement.
Print Assumptions C96_forward_secrecy.

From Verif Require Import Demo.
(** * The demonstration run *)

(** The random values of the calls of Demo.v: all values of a call are made of one byte. *)
Definition ex_byte (r : nat) : byte := nth r [x00; x01; x02; xaa; xbb; xcc; xdd; xee] x00.
Definition ex_v (n : name) : bytes :=
  match n with
  | NStatic 0 => Demo.skA
  | NStatic _ => Demo.skB
  | NPsk _ => repeat x77 32
  | NBk _ k => if Nat.ltb k 8 then repeat (ex_byte k) 32 else zeros (32 + k)
  | NEsk r => [ex_byte r]
  | NCoin r b => [ex_byte r; if b then x02 else x01]
  | NSid r => repeat (ex_byte r) 4
  | NNonce r => tag_nonce true (repeat (ex_byte r) 24)
  | NAdv _ => []
  end.
Definition ex_servers (n : nat) : srv := match n with 0 => Demo.A0 | _ => Demo.B0 end.

Lemma ex_start : history Toy.prims ex_v ex_cfg ex_servers [].
Proof.
  apply h_start. intros A. exists 0, 0, (zeros 16), (zeros 16), (zeros 32).
  destruct A as [|A]; cbn [ex_servers]; vm_compute; reflexivity.
Qed.
Lemma ex_cfg_ok : cfg_ok ex_cfg.
Proof.
  intros A i j q q' X Y _. destruct A as [|[|A]]; destruct i as [|[|i]]; destruct j as [|[|j]]; cbn in X, Y; congruence.
Qed.
Lemma ex_named A run now b s : (b = ex_byte run /\ run < 8) -> biscuit_slot now (Demo.coin b) s = true ->
  named ex_v A run now (Demo.coin b) s.
Proof.
  intros [-> L] S. constructor; try reflexivity.
  - rewrite S. reflexivity.
  - exists run. cbn [ex_v]. apply Nat.ltb_lt in L. rewrite L. reflexivity.
  - intros i _. exists 0. reflexivity.
Qed.
Lemma quiet s s' A run tr tr' : extends Toy.prims ex_v ex_cfg A s s' run None SNone tr tr' -> tr' = tr.
Proof.
  intros [->|(e & C & ->)]; [reflexivity|].
  destruct e; cbn [causes] in C; try contradiction;
    repeat match goal with X : _ /\ _ |- _ => destruct X | X : exists _, _ |- _ => destruct X end; discriminate.
Qed.
Lemma ex_key s k : has_key ex_v 1 s k -> cs_value (get_bk true s) = repeat xbb 32 -> cs_value (get_bk false s) = zeros 32 ->
  k = 4 \/ k = 0.
Proof.
  intros [b Hb] H1 H2. cbn [ex_v] in Hb. destruct (Nat.ltb_spec k 8) as [L|L].
  - do 8 (destruct k as [|k]; [destruct b; [rewrite H1 in Hb|rewrite H2 in Hb]; vm_compute in Hb; try discriminate Hb; auto|]). lia.
  - apply (f_equal (@length byte)) in Hb. rewrite zeros_length in Hb.
    destruct b; [rewrite H1 in Hb; rewrite repeat_length in Hb|rewrite H2 in Hb; rewrite zeros_length in Hb]; lia.
Qed.
Definition e0 := ex_entry 0.
Definition e1 := ex_entry 1.
Definition ex_m := fst (s_init 3 0 e1).

Lemma ex_hello tr : In (EInit 3 0 e1) tr -> heard Toy.prims ex_v ex_cfg 1 Demo.B1 tr Demo.m1 (SIH ex_m).
Proof.
  intros I. unfold heard. change (first_type Demo.m1) with (Some MInitHello). cbv iota.
  split; [vm_compute; reflexivity|]. split; [intros t T; eapply k_sent; [exact I|exact T]|].
  intros g. destruct g.
  - split; [intros pt _; eexists; vm_compute; reflexivity|].
    intros pid q E [<-|[]]. assert (y_pidct ex_m = s_tag (s_key Shake (resp_ck1 Shake 1 ex_m)) (s_pid Shake (pkey 0))) as E' by
      (vm_compute; reflexivity).
    rewrite E' in E. unfold s_tag in E. assert (pid = s_pid Shake (pkey 0)) as -> by congruence.
    split; [intros _; reflexivity|]. intros pt _. eexists. vm_compute. reflexivity.
  - split; [intros pt O; vm_compute in O; discriminate O|]. intros pid q E. vm_compute in E. discriminate E.
Qed.

Lemma conf_chain run A p rh : conf_ck run A p rh = chain (e_alg p) (e_pk p) (initiator_items run A p rh).
Proof.
  destruct (s_init run A p) as [m0 ck0] eqn:I. destruct (init_spec _ _ _ _ _ I) as (_ & _ & _ & _ & _ & E6).
  unfold conf_ck. rewrite I. cbn [snd]. rewrite E6. unfold initiator_items. rewrite I. reflexivity.
Qed.
(** The answer of [B] to an InitHello of [A]: the initiator computes the chaining key of the responder. *)
Lemma honest_ck peers run A p run' B k bno g q rh ck :
  s_resp peers run' B k bno g (fst (s_init run A p)) = Some (q, rh, ck) ->
  e_pk p = pkey B -> e_pk q = pkey A -> e_psk q = e_psk p -> e_alg q = e_alg p ->
  g = e_alg p /\ z_sidi rh = Nm (NSid run) /\ z_sidr rh = Nm (NSid run') /\
  z_biscuit rh = s_biscuit run' B k bno q (z_sidi rh) (z_sidr rh) ck /\
  conf_ck run A p rh = s_ckmix (e_alg p) ck (z_biscuit rh) /\
  z_auth rh = s_tag (s_key (e_alg p) (conf_ck run A p rh)) (Lit []).
Proof.
  intros S P1 P2 P3 P4. set (m := fst (s_init run A p)) in *.
  destruct (resp_spec _ _ _ _ _ _ _ _ _ _ S) as (pt & _ & _ & G & _ & Z1 & Z2 & Z3 & Z4 & Z5 & Z6 & Z7).
  fold (responder_items B q m rh run') in Z5. assert (g = e_alg p) as -> by congruence.
  assert (It : responder_items B q m rh run' ++ [z_biscuit rh] = initiator_items run A p rh).
  { assert (K1 : kdec false (skey B) (y_sctr m) = Shk false (pkey B) (Nm (NCoin run false))).
    { change (y_sctr m) with (Ct false (e_pk p) (Nm (NCoin run false))). rewrite P1. apply kdec_own. }
    assert (K2 : kdec true (Nm (NEsk run)) (z_ecti rh) = Shk true (y_epki m) (Nm (NCoin run' false))).
    { rewrite Z3. apply kdec_own. }
    assert (K3 : kdec false (skey A) (z_scti rh) = Shk false (pkey A) (Nm (NCoin run' true))).
    { rewrite Z4, P2. apply kdec_own. }
    unfold responder_items, initiator_items, hello_all, hello_items. rewrite K1, K2, K3, P1, P2, P3.
    fold m. rewrite <- !app_assoc. reflexivity. }
  assert (Ck : s_ckmix (e_alg p) ck (z_biscuit rh) = chain (e_alg p) (e_pk p) (initiator_items run A p rh)).
  { rewrite <- It, Z5, P1, chain_snoc. reflexivity. }
  pose proof (conf_chain run A p rh) as X.
  split; [reflexivity|]. split; [rewrite Z2; reflexivity|]. split; [exact Z1|]. split; [exact Z6|].
  split; [now rewrite X, Ck|]. rewrite X, <- Ck. exact Z7.
Qed.

Lemma ex_find pid q : s_find (ex_cfg 1) pid = Some q -> q = e0.
Proof. unfold s_find. change (ex_cfg 1) with [e0]. cbn [find]. destruct (term_eqb _ _); congruence. Qed.
Lemma ex_resp k bno g q rh ck : s_resp (ex_cfg 1) 4 1 k bno g ex_m = Some (q, rh, ck) ->
  g = Shake /\ z_sidi rh = Nm (NSid 3) /\ z_sidr rh = Nm (NSid 4) /\
  z_biscuit rh = s_biscuit 4 1 k bno e0 (z_sidi rh) (z_sidr rh) ck /\
  conf_ck 3 0 e1 rh = s_ckmix Shake ck (z_biscuit rh) /\
  z_auth rh = s_tag (s_key Shake (conf_ck 3 0 e1 rh)) (Lit []).
Proof.
  intros S. assert (q = e0) as ->.
  { destruct (resp_spec _ _ _ _ _ _ _ _ _ _ S) as (pt & _ & F & _). exact (ex_find _ _ F). }
  exact (honest_ck _ _ _ _ _ _ _ _ _ _ _ _ S eq_refl eq_refl eq_refl eq_refl).
Qed.
Lemma ex_resp_ideal tr k bno g q rh ck : (forall r p, In (EInit r 0 p) tr -> r = 3 /\ p = e1) ->
  s_resp (ex_cfg 1) 4 1 k bno g ex_m = Some (q, rh, ck) -> rh_ideal Toy.prims ex_v 0 tr rh.
Proof.
  intros U S r p I _ pt _. destruct (U r p I) as [-> ->].
  destruct (ex_resp _ _ _ _ _ _ S) as (_ & Z1 & _ & _ & _ & Z2). split; [exact Z1|]. eexists. exact Z2.
Qed.

Lemma toy_open k n ad pt : length n = 24 -> xdec Toy.prims k ad (xenc Toy.prims k n ad pt) = Some pt.
Proof. apply xdec_xenc. exact Toy.correct. Qed.

Definition ex_biscuit := Eval vm_compute in ic_biscuit (parse_ic (env_payload IC_LEN Demo.m3)).
Definition ex_ad (g : halg) := s_biscuit_adata g (pkey 1) (Nm (NSid 3)) (Nm (NSid 4)).
Lemma ex_conf_ideal k bno g q rh ck ic ck2 :
  s_resp (ex_cfg 1) 4 1 k bno g ex_m = Some (q, rh, ck) -> s_conf 3 0 e1 rh = Some (ic, ck2) -> k = 4 \/ k = 0 ->
  ev Toy.prims ex_v (w_biscuit ic) = ex_biscuit -> ic_ideal Toy.prims ex_v ex_cfg 1 Demo.B2 ic.
Proof.
  intros S S2 K Eb. destruct (ex_resp _ _ _ _ _ _ S) as (-> & Z1 & Z2 & Z3 & Z4 & Z5).
  assert (Hc : exists a b, ck = H Shake a b).
  { destruct (resp_spec _ _ _ _ _ _ _ _ _ _ S) as (pt & _ & _ & _ & _ & _ & _ & _ & _ & -> & _).
    unfold hello_all, answer_items. do 2 eexists. reflexivity. }
  destruct Hc as (ca & cb & Hc).
  destruct (conf_spec _ _ _ _ _ _ S2) as (pt' & Y1 & Y2 & Y3 & Y4 & Y5 & Y6 & _). cbn zeta in Y6.
  fold (initiator_items 3 0 e1 rh) in Y6.
  assert (B1 : w_biscuit ic = Aead true (Nm (NBk 1 k)) (Nm (NNonce 4)) (ex_ad Shake)
      (Pair (s_pid Shake (pkey 0)) (Pair (Lit bno) ck))).
  { rewrite Y5, Z3, Z1, Z2. reflexivity. }
  assert (O : xdec Toy.prims (ex_v (NBk 1 k)) (ev Toy.prims ex_v (ex_ad Shake)) ex_biscuit =
    Some (ev Toy.prims ex_v (s_pid Shake (pkey 0)) ++ bno ++ ev Toy.prims ex_v ck)).
  { rewrite <- Eb, B1. cbn [ev]. rewrite toy_open by reflexivity. reflexivity. }
  destruct K as [-> | ->].
  2:{ exfalso. revert O. generalize (ev Toy.prims ex_v (s_pid Shake (pkey 0)) ++ bno ++ ev Toy.prims ex_v ck).
      intros l O. vm_compute in O. discriminate O. }
  intros k' g' pt Hk O'. rewrite Eb in Hk, O'. rewrite Y3, Y4, Z1, Z2 in O'. fold (ex_ad g') in O'.
  assert (k' = 4) as ->.
  { destruct (ex_key Demo.B2 k') as [-> | ->]; [now exists (nonce_slot ex_biscuit)|reflexivity|reflexivity|reflexivity|].
    vm_compute in Hk. discriminate Hk. }
  destruct g'; [|vm_compute in O'; discriminate O'].
  assert (Lc : length (ev Toy.prims ex_v ck) = 32) by (rewrite Hc; cbn [ev]; apply (khash_len Toy.prims)).
  exists (Nm (NNonce 4)), (s_pid Shake (pkey 0)), (Lit bno), ck.
  split; [rewrite Y3, Y4, Z1, Z2; exact B1|]. split; [reflexivity|]. split; [apply (khash_len Toy.prims)|].
  split.
  { rewrite O in O'. assert (length pt = 76) as L.
    { rewrite <- O in O'. clear O. vm_compute in O'. injection O' as <-. reflexivity. }
    match type of O' with Some ?l = _ => assert (pt = l) as -> by congruence end. rewrite !app_length, Lc in L. cbn [ev].
    assert (length (ev Toy.prims ex_v (s_pid Shake (pkey 0))) = 32) as L2 by apply (khash_len Toy.prims). rewrite L2 in L. lia. }
  split; [exact Lc|]. intros q' [<-|[]]. split; [intros _; reflexivity|]. intros pt1 _. exists (Lit []).
  rewrite Y6. unfold s_tag. f_equal. change (e_alg (ex_entry 0)) with Shake. change (e_alg e1) with Shake. f_equal.
  unfold done_ck. change (e_alg (ex_entry 0)) with Shake. rewrite Y3, Y4, Y5.
  unfold s_seal. cbn [snd]. rewrite <- Z4, <- Z5.
  rewrite conf_chain, chain_app. reflexivity.
Qed.

(** The servers of Demo.v after the handshake, with the run that explains them, meet the conditions of C96; both have a
    session and hand out the same key. *)
Example C96_example : exists W tr key,
  history Toy.prims ex_v ex_cfg W tr /\ W 0 = Demo.A3 /\ W 1 = Demo.B3 /\
  keys_in_order tr (ex_entry 1) /\ keys_in_order tr (ex_entry 0) /\ no_biscuit_key tr /\ only_long_term tr /\
  snd (exec Toy.prims (Demo.mk (secs 6) x01 (OOsk 0)) (W 0)) = Ok (RKey key) /\
  snd (exec Toy.prims (Demo.mk (secs 6) x01 (OOsk 0)) (W 1)) = Ok (RKey key) /\
  exists a b, option_map se_role (match nth_error (s_peers (W 0)) 0 with Some x => p_session x | None => None end) = Some a /\
    option_map se_role (match nth_error (s_peers (W 1)) 0 with Some x => p_session x | None => None end) = Some b /\
    a = Initiator /\ b = Responder.
Proof.
  pose proof (C95_every_call_explained Toy.prims Toy.correct ex_v ex_cfg) as Go.
  pose proof ex_cfg_ok as C. pose proof ex_start as H0.
  assert (F0 : forall r, Sym.fresh r []) by (intros r; split; intros; intros []).
  destruct (Go _ _ 0 1 Demo.cA1 SNone Demo.A1 (snd Demo.rA1) C H0) as (t1 & X1 & H1 & _).
  { split; [split; [apply Demo.wf_coin|exact Logic.I]|]. split; [apply ex_named; [split; [reflexivity|lia]|vm_compute; reflexivity]|].
    split; [apply F0|]. split; [reflexivity|]. exists (ex_entry 1). split; [reflexivity|]. repeat split; vm_compute; reflexivity. }
  { vm_compute. reflexivity. }
  apply quiet in X1. subst t1.
  destruct (Go _ _ 1 2 Demo.cB1 SNone Demo.B1 (snd Demo.rB1) C H1) as (t1 & X1 & H2 & _).
  { split; [split; [apply Demo.wf_coin|exact Logic.I]|]. split; [apply ex_named; [split; [reflexivity|lia]|vm_compute; reflexivity]|].
    split; [apply F0|]. split; [reflexivity|]. exists (ex_entry 0). split; [reflexivity|]. repeat split; vm_compute; reflexivity. }
  { vm_compute. reflexivity. }
  apply quiet in X1. subst t1. clear H0 H1.
  destruct (Go _ _ 0 3 Demo.cA2 SNone Demo.A2 (snd Demo.rA2) C H2) as (t1 & X1 & H3 & S3).
  { split; [|split; [apply ex_named; [split; [reflexivity|lia]|vm_compute; reflexivity]|split; [apply F0|reflexivity]]]. Demo.okv. }
  { vm_compute. reflexivity. }
  specialize (S3 Demo.m1 eq_refl).
  assert (t1 = [EInit 3 0 e1]) as ->.
  { destruct X1 as [-> | (e & Ce & ->)].
    - exfalso. destruct S3 as [? ? ? []|? ? ? ? ? ? ? ? ? []|? ? ? ? ? ? []|? ? ? ? ? ? ? []|Ft]. vm_compute in Ft. discriminate Ft.
    - destruct e; cbn [causes] in Ce; repeat match goal with X : _ /\ _ |- _ => destruct X end; try discriminate; try contradiction.
      subst. match goal with X : exists i, _ |- _ => destruct X as (i & Ei & En) end.
      vm_compute in Ei. injection Ei as <-. destruct En as [En _]. injection En as <-. reflexivity. }
  clear X1 S3 H2.
  destruct (Go _ _ 1 4 Demo.cB2 (SIH ex_m) Demo.B2 (snd Demo.rB2) C H3) as (t1 & X1 & H4 & S4).
  { split; [|split; [apply ex_named; [split; [reflexivity|lia]|vm_compute; reflexivity]|split; [|]]].
    - Demo.okv.
    - split; intros; intros [X|[]]; discriminate X.
    - apply ex_hello. now left. }
  { vm_compute. reflexivity. }
  specialize (S4 Demo.m2 eq_refl).
  assert (exists k bno g q rh ck, t1 = [EResp 4 1 k bno g ex_m; EInit 3 0 e1] /\ (k = 4 \/ k = 0) /\
    s_resp (ex_cfg 1) 4 1 k bno g ex_m = Some (q, rh, ck) /\ parse_rh (env_payload RH_LEN Demo.m2) = ev_rh Toy.prims ex_v rh)
    as (k & bno & g & q & rh & ck & -> & Ek & Sr & Pr).
  { assert (exists k bno g, In (EResp 4 1 k bno g ex_m) t1 /\ t1 = [EResp 4 1 k bno g ex_m; EInit 3 0 e1] /\ has_key ex_v 1 Demo.B2 k)
      as (k & bno & g & I & Et & Hk).
    { destruct X1 as [-> | (e & Ce & ->)].
      - exfalso. destruct S4 as [? ? ? [X|[]] Ft|? ? ? ? ? ? ? ? ? [X|[]]|? ? ? ? ? ? [X|[]]|? ? ? ? ? ? ? [X|[]]|Ft]; try discriminate X;
          vm_compute in Ft; discriminate Ft.
      - destruct e; cbn [causes] in Ce; repeat match goal with X : _ /\ _ |- _ => destruct X end; try discriminate; try contradiction.
        + match goal with X : exists i, _ |- _ => destruct X as (i & Ei & En) end. discriminate Ei.
        + subst. assert (m = ex_m) as -> by congruence. do 3 eexists. split; [now left|]. split; [reflexivity|assumption]. }
    rewrite Et in S4. destruct S4 as [? ? ? X Ft|r B' k' b' g' m' q rh ck [X|[X|[]]] Sr _ _ Pr|? ? ? ? ? ? [X|[X|[]]]|? ? ? ? ? ? ? [X|[X|[]]]|Ft];
      try discriminate X; try (vm_compute in Ft; discriminate Ft).
    assert (r = 4 /\ B' = 1 /\ k' = k /\ b' = bno /\ g' = g /\ m' = ex_m) as (-> & -> & -> & -> & -> & ->) by (repeat split; congruence).
    exists k, bno, g, q, rh, ck. split; [exact Et|]. split; [|split; [exact Sr|exact Pr]].
    apply (ex_key Demo.B2 k Hk); reflexivity. }
  clear X1 S4 H3.
  destruct (Go _ _ 0 5 Demo.cA3 (SRH rh) Demo.A3 (snd Demo.rA3) C H4) as (t1 & X1 & H5 & S5).
  { split; [|split; [apply ex_named; [split; [reflexivity|lia]|vm_compute; reflexivity]|split; [|]]].
    - Demo.okv.
    - split; intros; intros [X|[X|[]]]; discriminate X.
    - unfold heard. cbn [c_op Demo.cA3 Demo.mk]. change (first_type Demo.m2) with (Some MRespHello). cbv iota.
      split; [exact Pr|]. split; [intros t T; eapply k_sent; [left; reflexivity|]; cbn [sent]; rewrite Sr; exact T|].
      eapply ex_resp_ideal; [|exact Sr]. intros r p [X|[X|[]]]; [discriminate X|]. split; congruence. }
  { vm_compute. reflexivity. }
  specialize (S5 Demo.m3 eq_refl).
  assert (exists ic ck2, t1 = [EConf 3 0 e1 rh; EResp 4 1 k bno g ex_m; EInit 3 0 e1] /\
    s_conf 3 0 e1 rh = Some (ic, ck2) /\ parse_ic (env_payload IC_LEN Demo.m3) = ev_ic Toy.prims ex_v ic)
    as (ic & ck2 & -> & Sc & Pc).
  { assert (exists r p, t1 = [EConf r 0 p rh; EResp 4 1 k bno g ex_m; EInit 3 0 e1]) as (r & p & Et).
    { destruct X1 as [-> | (e & Ce & ->)].
      - exfalso. destruct S5 as [? ? ? [X|[X|[]]] Ft|? ? ? ? ? ? ? ? ? [X|[X|[]]] ? Ft|? ? ? ? ? ? [X|[X|[]]]|? ? ? ? ? ? ? [X|[X|[]]]|Ft]; try discriminate X;
          vm_compute in Ft; discriminate Ft.
      - destruct e; cbn [causes] in Ce; repeat match goal with X : _ /\ _ |- _ => destruct X end; try discriminate; try contradiction.
        + match goal with X : exists i, _ |- _ => destruct X as (i & Ei & En) end. discriminate Ei.
        + subst. assert (m = rh) as -> by congruence. do 2 eexists. reflexivity. }
    rewrite Et in S5. assert (V : Sym.valid ex_cfg t1).
    { destruct (C95_histories_explained Toy.prims ex_v ex_cfg _ _ H5) as [V _]. exact V. }
    rewrite Et in V. destruct (valid_conf _ _ _ _ _ _ V) as (_ & In0 & _).
    destruct In0 as [X|[X|[]]]; [discriminate X|]. assert (r = 3) as -> by congruence. assert (p = e1) as -> by congruence. clear X.
    destruct S5 as [? ? ? X Ft|? ? ? ? ? ? ? ? ? X ? Ft|r' A' p' m' ic ck2 [X|[X|[X|[]]]] Sc _ _ Pc|? ? ? ? ? ? ? [X|[X|[X|[]]]]|Ft];
      try discriminate X; try (vm_compute in Ft; discriminate Ft).
    assert (r' = 3 /\ A' = 0 /\ p' = e1 /\ m' = rh) as (-> & -> & -> & ->) by (repeat split; congruence).
    exists ic, ck2. auto. }
  clear X1 S5 H4.
  destruct (Go _ _ 1 6 Demo.cB3 (SIC ic) Demo.B3 (snd Demo.rB3) C H5) as (t1 & X1 & H6 & _).
  { split; [|split; [apply ex_named; [split; [reflexivity|lia]|vm_compute; reflexivity]|split; [|]]].
    - Demo.okv.
    - split; intros; intros [X|[X|[X|[]]]]; discriminate X.
    - unfold heard. cbn [c_op Demo.cB3 Demo.mk]. change (first_type Demo.m3) with (Some MInitConf). cbv iota.
      split; [exact Pc|]. split; [intros t T; eapply k_sent; [left; reflexivity|]; cbn [sent]; rewrite Sc; exact T|].
      eapply ex_conf_ideal; [exact Sr|exact Sc|exact Ek|].
      assert (ic_biscuit (parse_ic (env_payload IC_LEN Demo.m3)) = ex_biscuit) as Eb by (vm_compute; reflexivity).
      rewrite Pc in Eb. exact Eb. }
  { vm_compute. reflexivity. }
  assert (R : forall n, ~ revealed t1 n).
  { intros n X. unfold revealed in X. destruct X1 as [-> | (e & Ce & ->)]; [destruct X as [X|[X|[X|[]]]]; discriminate X|].
    destruct X as [X|[X|[X|[X|[]]]]]; try discriminate X. subst e. exact Ce. }
  do 3 eexists. split; [exact H6|]. split; [reflexivity|]. split; [reflexivity|].
  split; [left; exists 0; split; [reflexivity|apply R]|]. split; [left; exists 0; split; [reflexivity|apply R]|].
  split; [intros B j; apply R|]. split; [intros n X; destruct (R n X)|].
  split; [vm_compute; reflexivity|]. split; [vm_compute; reflexivity|].
  do 2 eexists. split; [vm_compute; reflexivity|]. split; [vm_compute; reflexivity|]. split; reflexivity.
Qed.
