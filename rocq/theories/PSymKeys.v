(** C97: secrets of the servers stay where they are.  C98: a session key has two ends. *)
From Verif Require Import Base ConstTime Prims HashDomains Wire Server Protocol Wp Inv Rules Calls PollRules System Trans.
From Verif Require Import Sym SymSec PSym PSymLink SymRun PSymRun.

(** * C97 *)

(** Values that only their owner should have: static secret keys, pre-shared keys, biscuit keys, ephemeral secret keys and the
    coins of encapsulations. *)
Definition secret_name (n : name) : Prop :=
  match n with NStatic _ | NPsk _ | NBk _ _ | NEsk _ | NCoin _ _ => True | NSid _ | NNonce _ | NAdv _ => False end.

(** No message, of any handshake, with anyone, gives one of them away. *)
Theorem C97_secrets_stay cfg tr n : Sym.valid cfg tr -> secret_name n -> knows cfg tr (Nm n) -> revealed tr n.
Proof.
  intros V N K. apply (known_pub cfg) in K; [|exact V]. destruct K as [O|R]; [|exact R]. destruct n; contradiction.
Qed.
Print Assumptions C97_secrets_stay.

(** Nor a secret that was encapsulated by an agent for an agent. *)
Theorem C97_encapsulated_stay cfg tr e s n : Sym.valid cfg tr -> secret_name s -> secret_name n ->
  knows cfg tr (Shk e (Pk e (Nm s)) (Nm n)) -> revealed tr s \/ revealed tr n.
Proof.
  intros V S N K. apply (known_pub cfg) in K; [|exact V]. destruct K as [[O|R]|[_ [O|R]]]; auto; destruct n, s; contradiction.
Qed.
Print Assumptions C97_encapsulated_stay.

(** The same for the servers themselves: the attacker gets to know the static secret key, the pre-shared keys and the biscuit
    keys of a server only if it is given them. *)
Theorem C97_server_secrets P v cfg W tr A : history P v cfg W tr ->
  s_sskm (W A) = ev P v (skey A) /\ (knows cfg tr (skey A) -> revealed tr (NStatic A)) /\
  (forall b, exists k, cs_value (get_bk b (W A)) = v (NBk A k) /\ (knows cfg tr (Nm (NBk A k)) -> revealed tr (NBk A k))) /\
  (forall i x q j, nth_error (s_peers (W A)) i = Some x -> nth_error (cfg A) i = Some q -> e_psk q = Nm (NPsk j) ->
     p_psk x = v (NPsk j) /\ (knows cfg tr (e_psk q) -> revealed tr (NPsk j))).
Proof.
  intros Hy. destruct (C95_histories_explained P v cfg W tr Hy) as [V K]. destruct (K A) as [_ [[A1 A2] Ps B]].
  split; [exact A2|]. split; [intros X; exact (C97_secrets_stay cfg tr (NStatic A) V Logic.I X)|]. split.
  - intros b. destruct (B b) as [k Hk]. exists k. split; [exact Hk|]. now apply C97_secrets_stay.
  - intros i x q j X Q E. destruct (Ps i x X) as (q' & N & Y). assert (q' = q) by congruence. subst q'.
    destruct (po_entry _ _ _ _ _ _ _ Y) as (_ & E2 & _). rewrite E in E2 |- *. split; [exact E2|]. now apply C97_secrets_stay.
Qed.
Print Assumptions C97_server_secrets.

(** * C98 *)

(** Two initiators with the same key: it is the same handshake. *)
Theorem C98_initiators cfg tr run A p m run' A' p' m' ck :
  Sym.valid cfg tr -> initiator_has tr run A p m ck -> initiator_has tr run' A' p' m' ck ->
  run = run' /\ A = A' /\ p = p' /\ m = m'.
Proof.
  intros V (I & ic & S) (I' & ic' & S'). pose proof (PSym.conf_chain _ _ _ _ _ _ S) as E.
  rewrite (PSym.conf_chain _ _ _ _ _ _ S') in E. destruct (chain_inj _ _ _ _ _ _ E) as (_ & _ & L).
  assert (N : forall j, nth j (initiator_items run' A' p' m' ++ conf_items m' (w_auth ic')) (Lit []) =
                   nth j (initiator_items run A p m ++ conf_items m (w_auth ic)) (Lit [])) by (intros j; now rewrite L).
  clear L E. assert (L1 : Nm (NSid run') = Nm (NSid run)) by exact (N 0). assert (run' = run) as -> by congruence.
  destruct (init_unique _ _ _ _ _ _ _ V (conf_init _ _ _ _ _ _ V I) (conf_init _ _ _ _ _ _ V I')) as [-> ->].
  split; [reflexivity|]. split; [reflexivity|]. split; [reflexivity|]. symmetry.
  apply rh_eq; [exact (N 9)|exact (N 10)|exact (N 13)|exact (N 16)|exact (N 18)|exact (N 17)].
Qed.
Print Assumptions C98_initiators.

(** Two responders with the same key: it is the same responder, and the same InitConf. *)
Theorem C98_responders cfg tr B k q m B' k' q' m' ck :
  responder_has cfg tr B k q m ck -> responder_has cfg tr B' k' q' m' ck ->
  B = B' /\ k = k' /\ q = q' /\ m = m'.
Proof.
  intros (g & ctr & _ & S) (g' & ctr' & _ & S').
  destruct (done_spec _ _ _ _ _ _ _ S) as (n & bno & c0 & pt & W1 & W2 & W3 & W4).
  destruct (done_spec _ _ _ _ _ _ _ S') as (n' & bno' & c0' & pt' & W1' & W2' & W3' & W4').
  rewrite W4' in W4. cbn [chain_from fold_left] in W4. unfold s_ckmix in W4.
  assert (Wa : w_auth m' = w_auth m) by congruence.
  assert (Wr : w_sidr m' = w_sidr m) by congruence.
  assert (Wi : w_sidi m' = w_sidi m) by congruence.
  assert (Wb : w_biscuit m' = w_biscuit m) by congruence.
  assert (m' = m) as -> by (apply ic_eq; assumption).
  rewrite W1 in W1'. assert (B' = B) as -> by congruence. assert (k' = k) as -> by congruence.
  assert (s_pid (e_alg q') (e_pk q') = s_pid (e_alg q) (e_pk q)) as Ep by congruence.
  rewrite Ep in W2'. repeat split; congruence.
Qed.
Print Assumptions C98_responders.

(** An initiator and a responder with the same key: each has the other as peer, with the same pre-shared key and hash, the
    initiator has accepted an answer of this responder to its InitHello, and the responder its InitConf. *)
Theorem C98_two_ends cfg tr run A p m B k q ic ck :
  Sym.valid cfg tr -> initiator_has tr run A p m ck -> responder_has cfg tr B k q ic ck -> ~ revealed tr (NBk B k) ->
  e_pk p = pkey B /\ e_pk q = pkey A /\ e_psk q = e_psk p /\ e_alg q = e_alg p /\
  s_conf run A p m = Some (ic, ck) /\
  exists run', answered cfg tr run' B k (fst (s_init run A p)) q m.
Proof.
  intros V (I & ic0 & S) (g & ctr & Ie & D) R.
  destruct (valid_split cfg _ _ V Ie) as (t2 & t1 & Et & V1). destruct (valid_done _ _ _ _ _ _ _ V1) as (V1' & K & _).
  assert (L : incl t1 tr). { rewrite Et. intros x X. apply in_or_app. right. right. exact X. }
  destruct (responder_biscuit _ _ _ _ _ _ _ _ V1' K D) as (run' & bno & m' & rh & c0 & pt & I' & E & W1 & W2 & W3 & G & _ & W5).
  { intros X. apply R, L, X. }
  pose proof (PSym.conf_chain _ _ _ _ _ _ S) as Ec. rewrite W5 in Ec. destruct (chain_inj _ _ _ _ _ _ Ec) as (Ga & Pk & It).
  assert (It' : responder_items B q m' rh run' ++ [z_biscuit rh] = initiator_items run A p m /\
                [z_auth rh; z_sidi rh; z_sidr rh; w_auth ic] = conf_items m (w_auth ic0)).
  { unfold responder_items, initiator_items, hello_all, hello_items, answer_items, conf_items in *. cbn [List.app] in *.
    injection It. intros. split; congruence. }
  destruct It' as [It1 It2]. destruct (items_agree _ _ _ _ _ _ _ _ _ It1) as (Em & Q1 & Q2 & Z1 & Z2 & Z3 & Z4 & Z5).
  unfold conf_items in It2.
  assert (rh = m) as -> by (apply rh_eq; congruence).
  destruct (conf_spec _ _ _ _ _ _ S) as (pt' & _ & _ & Y3 & Y4 & Y5 & _).
  assert (ic0 = ic) as -> by (apply ic_eq; congruence).
  split; [now symmetry|]. split; [exact Q1|]. split; [exact Q2|]. split; [congruence|]. split; [exact S|].
  exists run'. rewrite <- Em. exists bno, g, c0. split; [apply L, I'|exact E].
Qed.
Print Assumptions C98_two_ends.

(** Two sessions in servers with the same key (and no collision of the two terms): the same server and peer entry if they have the
    same role; otherwise two servers that have each other as peers with the same pre-shared key. *)
Theorem C98_sessions P v cfg W tr A i x u A' i' x' u' q q' :
  history P v cfg W tr -> no_biscuit_key tr ->
  nth_error (s_peers (W A)) i = Some x -> p_session x = Some u -> nth_error (cfg A) i = Some q ->
  nth_error (s_peers (W A')) i' = Some x' -> p_session x' = Some u' -> nth_error (cfg A') i' = Some q' ->
  exists ck ck', se_ck u = ev P v ck /\ se_ck u' = ev P v ck' /\
    (distinct P v ck ck' -> se_ck u = se_ck u' ->
     (se_role u = se_role u' -> A = A' /\ q = q') /\
     (se_role u <> se_role u' -> e_pk q = pkey A' /\ e_pk q' = pkey A /\ e_psk q = e_psk q' /\ e_alg q = e_alg q')).
Proof.
  intros Hy NB X U Nq X' U' Nq'. destruct (C95_histories_explained P v cfg W tr Hy) as [V _].
  destruct (C95_sessions P v cfg W tr A i x u Hy X U) as (q0 & ck & N & _ & _ & E & R).
  destruct (C95_sessions P v cfg W tr A' i' x' u' Hy X' U') as (q0' & ck' & N' & _ & _ & E' & R').
  assert (q0 = q) by congruence. assert (q0' = q') by congruence. subst q0 q0'.
  exists ck, ck'. split; [exact E|]. split; [exact E'|]. intros D Eq.
  assert (ck = ck') by (apply D; congruence). subst ck'.
  destruct (se_role u), (se_role u'); (split; [intros Er; try discriminate Er|intros Er; try (exfalso; apply Er; reflexivity)]).
  - destruct R as (run & m & R), R' as (run' & m' & R'). destruct (C98_initiators _ _ _ _ _ _ _ _ _ _ _ V R R') as (_ & H1 & H2 & _). auto.
  - destruct R as (run & m & R), R' as (k & m' & R'). destruct (C98_two_ends _ _ _ _ _ _ _ _ _ _ _ V R R' (NB _ _)) as (H1 & H2 & H3 & H4 & _).
    repeat split; congruence.
  - destruct R' as (run & m & R'), R as (k & m' & R). destruct (C98_two_ends _ _ _ _ _ _ _ _ _ _ _ V R' R (NB _ _)) as (H1 & H2 & H3 & H4 & _).
    repeat split; congruence.
  - destruct R as (k & m & R), R' as (k' & m' & R'). destruct (C98_responders _ _ _ _ _ _ _ _ _ _ _ R R') as (H1 & _ & H2 & _). auto.
Qed.
Print Assumptions C98_sessions.

(** The two servers of Demo.v meet the conditions: different roles, the same key. *)
From Verif Require Import Demo.
Example C98_example : exists W tr x u x' u',
  history Toy.prims ex_v ex_cfg W tr /\ no_biscuit_key tr /\
  nth_error (s_peers (W 0)) 0 = Some x /\ p_session x = Some u /\ nth_error (ex_cfg 0) 0 = Some (ex_entry 1) /\
  nth_error (s_peers (W 1)) 0 = Some x' /\ p_session x' = Some u' /\ nth_error (ex_cfg 1) 0 = Some (ex_entry 0) /\
  se_ck u = se_ck u' /\ se_role u <> se_role u'.
Proof.
  destruct C96_example as (W & tr & key & Hy & W0 & W1 & _ & _ & NB & _). exists W, tr.
  set (f := fun s => match nth_error (s_peers s) 0 with
    | Some x => match p_session x with Some u => Some (se_ck u, se_role u) | None => None end | None => None end).
  assert (F : option_map fst (f Demo.A3) = option_map fst (f Demo.B3)) by (vm_compute; reflexivity).
  assert (F1 : option_map snd (f Demo.A3) = Some Initiator) by (vm_compute; reflexivity).
  assert (F2 : option_map snd (f Demo.B3) = Some Responder) by (vm_compute; reflexivity).
  unfold f in *. clear f. rewrite W0, W1.
  destruct (nth_error (s_peers Demo.A3) 0) as [x|]; [|discriminate F1]. destruct (p_session x) as [u|] eqn:U; [|discriminate F1].
  destruct (nth_error (s_peers Demo.B3) 0) as [x'|]; [|discriminate F2]. destruct (p_session x') as [u'|] eqn:U'; [|discriminate F2].
  cbn [option_map fst snd] in F, F1, F2. exists x, u, x', u'. repeat split; auto; congruence.
Qed.
