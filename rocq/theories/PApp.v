(** C31, C32, C55, C56: the application server. *)
From Verif Require Import Base ConstTime Prims HashDomains Wire Server Protocol Wp Inv Rules Calls PollRules System
  Trans Demo PSafety PPoll PHandshake Builder PBuilder AppNet AppIo PAppIo App.

(** * Sleep hints *)

Lemma wait_low now o : due_opt now o = false -> (2500 <= wait_opt now o)%Z.
Proof.
  destruct o as [t|]; cbn; [|intros _; change UNENDING with 28800000000%Z; lia].
  unfold due, has_happened. intros H. apply Z.ltb_ge in H. change EVENT_GRACE with 2500%Z in H. lia.
Qed.
Lemma key_wait_low now o : (2500 <= key_wait now o)%Z.
Proof.
  unfold key_wait. destruct (due_opt now o) eqn:E; [change UNENDING with 28800000000%Z; lia|].
  apply wait_low in E. change UNENDING with 28800000000%Z. lia.
Qed.
Lemma peer_wait_low now x : peer_event now x = EvNone -> (2500 <= peer_wait now x)%Z.
Proof.
  unfold peer_event, peer_wait. cbn zeta. intros H.
  destruct (ses_dead now (drop_hs now x)) eqn:E1; [discriminate|].
  destruct (init_due now (drop_hs now x)) eqn:E2; [discriminate|].
  destruct (retry_due now (drop_hs now x)) eqn:E3; [discriminate|].
  pose proof (key_wait_low now (hs_die_at (p_handshake x))).
  pose proof (wait_low _ _ E1). pose proof (wait_low _ _ E3).
  pose proof (key_wait_low now (known_die_at (p_known (drop_hs now x)))).
  unfold init_due, has_happened in E2. apply Z.ltb_ge in E2. change EVENT_GRACE with 2500%Z in E2.
  change UNENDING with 28800000000%Z. lia.
Qed.

(** The engine's sleep hints lie between 2.5 ms and eight hours. *)
Lemma sleep_bounds P s c s' t : reachable P s -> valid c s -> c_op c = OPoll ->
  exec P c s = (s', Ok (RPolled (Sleep t))) -> (2500 <= t <= 28800000000)%Z.
Proof.
  intros R V Eo E. pose proof (reachable_inv P s R) as I.
  destruct (exec_poll_step P c s s' _ I V Eo E) as (r0 & Er & S). injection Er as <-.
  destruct (pollstep_pscan P _ _ _ _ _ I S) as (s2 & _ & S2). clear S E.
  destruct (pscan_sleep P _ _ _ _ _ _ _ S2 (ptrs_nodup _ _)) as (_ & B & _).
  split; [|change UNENDING with 28800000000%Z in B; lia].
  assert (2500 <= Z.min UNENDING (keys_wait (c_now c) s))%Z as L.
  { unfold keys_wait. change UNENDING with 28800000000%Z.
    pose proof (key_wait_low (c_now c) (bk_die_at (s_bk0 s))). pose proof (key_wait_low (c_now c) (bk_die_at (s_bk1 s))).
    pose proof (key_wait_low (c_now c) (sec_die_at (s_cs0 s))). pose proof (key_wait_low (c_now c) (sec_die_at (s_cs1 s))).
    lia. }
  clear B V R I. revert L S2. generalize (Z.min UNENDING (keys_wait (c_now c) s)) (erase_keys (c_now c) (c_coins c) s).
  intros t0 s0 L S2. remember (Sleep t) as r eqn:Er. revert Er L.
  induction S2 as [s1 u|p x l s1 u s3 v s4 r I X PP G S IH|p x l s1 u s3 r I X PP G Sat]; intros Er L.
  - now injection Er as <-.
  - apply IH; [exact Er|]. destruct (peerpoll_sleep _ _ _ _ _ _ _ PP) as (E1 & -> & _).
    apply peer_wait_low in E1. lia.
  - subst. discriminate.
Qed.

(** * The engine's part of a turn *)

Lemma exchanged_session P s c s' h p : reachable P s -> valid c s ->
  exec P c s = (s', Ok (RHandled h)) -> mr_exchanged h = Some p ->
  exists x, nth_error (s_peers s') p = Some x /\ p_session x <> None.
Proof.
  intros R V E Hp. pose proof (reachable_inv P s R) as I.
  assert (forall s s' r, msgstep P (c_now c) (c_coins c) (match c_op c with OMsg rx _ | OLoad rx _ _ => rx | _ => [] end)
            (match c_op c with OMsg _ tx | OLoad _ tx _ => tx | _ => [] end) s s' r -> r = Ok h ->
          exists x, nth_error (s_peers s') p = Some x /\ p_session x <> None) as K.
  { clear - Hp. intros s s' r M Er. destruct M; try discriminate; injection Er as <-; cbn in Hp; try discriminate.
    - injection Hp as <-. match goal with Q : st_rel _ _ _ _ _ |- _ => pose proof (st_rel_self _ _ _ _ _ Q) as K end.
      eexists. split; [exact K|]. cbn. discriminate.
    - injection Hp as <-. match goal with Q : st_rel _ _ _ _ _ |- _ => pose proof (st_rel_self _ _ _ _ _ Q) as K end.
      eexists. split; [exact K|]. cbn. discriminate. }
  pose proof (exec_step P c s s' _ I V E) as S. remember (Ok (RHandled h)) as R0 eqn:E0.
  destruct S as [ | | | |rx tx s1 r Ho M|rx tx host s1 r Ho L| |q tx r Ho _|q r Ho _]; try discriminate.
  - destruct r; try discriminate. injection E0 as ->. rewrite Ho in K. eapply K; [exact M|reflexivity].
  - destruct r; try discriminate. injection E0 as ->. rewrite Ho in K.
    remember (Ok h) as r1 eqn:E1. destruct L; subst; try discriminate; try (eapply K; [eassumption|reflexivity]).
    injection E1 as <-. discriminate Hp.
  - exfalso. subst r. unfold exec in E. rewrite Ho in E. apply map_ok_run in E. destruct E as ([?|?|] & _ & E); discriminate.
  - exfalso. subst r. unfold exec in E. rewrite Ho in E. apply map_ok_run in E. destruct E as ([?|?|] & _ & E); discriminate.
Qed.

Lemma osk_some P s p x now b : nth_error (s_peers s) p = Some x -> p_session x <> None ->
  exists k, exec P {| c_now := now; c_coins := b; c_op := OOsk p |} s = (s, Ok (RKey k)).
Proof.
  intros X S. set (c := {| c_now := now; c_coins := b; c_op := OOsk p |}). destruct (exec P c s) as [s' r] eqn:E.
  destruct (C45_osk_uses_configured_separator P c s p x s' r X eq_refl E) as (-> & r0 & E0 & ->).
  unfold osk_with_domain_separator, bind, get_peer in E0. rewrite X in E0.
  destruct (p_session x) as [u|]; [|congruence]. cbn in E0. injection E0 as <-. eauto.
Qed.

Lemma reachable_exec P s c s' r : reachable P s -> valid c s -> exec P c s = (s', r) -> reachable P s'.
Proof.
  intros R V E. eapply reachable_run; [exact R|]. apply run_cons with (s1 := s') (r := r); eauto. constructor.
Qed.

(** A poll gives a result, without peers being added. *)
Lemma poll_result P s c s' r : reachable P s -> valid c s -> c_op c = OPoll -> exec P c s = (s', r) ->
  reachable P s' /\ npeers s' = npeers s /\ exists q, r = Ok (RPolled q) /\
  match q with
  | Sleep t => (2500 <= t <= 28800000000)%Z
  | DeleteKey p | SendInitiation p | SendRetransmission p => p < npeers s
  end.
Proof.
  intros R V Eo E. pose proof (reachable_inv P s R) as I. split; [eapply reachable_exec; eauto|].
  pose proof (exec_npeers P c s s' r I V E) as N. rewrite Eo in N. split; [exact N|].
  destruct (exec_poll_step P c s s' r I V Eo E) as (q & -> & S). exists q. split; [reflexivity|].
  destruct q as [t|p|p|p]; [|destruct (poll_cases P c s s' _ I V Eo E)
      as [(u & [=] & _)|(r0 & p0 & y & y' & i & Er0 & Er & _ & Y & _)];
      injection Er0 as <-; cbn in Er; injection Er as <-; eapply pe_lt; eauto ..].
  eapply sleep_bounds; eauto.
Qed.

(** * Sockets are only added *)

Lemma add_connection_sockets ok x : io_sockets (fst (add_connection ok x)) = io_sockets x.
Proof.
  unfold add_connection, dispense. destruct ok; cbn [negb]; [|reflexivity].
  unfold register_io_source. sub. destruct (mget _ _); reflexivity.
Qed.
Lemma poll_conn_sockets i c x : io_sockets (fst (poll_particular_connection i c x)) = io_sockets x.
Proof.
  unfold poll_particular_connection. destruct (nth_error _ _) as [[k|]|]; try reflexivity.
  destruct c; try reflexivity. unfold unregister_io_source. sub. destruct (mget _ _); reflexivity.
Qed.
Lemma unbroker_sockets p ok x : io_sockets (fst (unregister_broker p ok x)) = io_sockets x.
Proof.
  unfold unregister_broker. destruct (mget _ _) as [b|]; [|reflexivity]. destruct (br_token b); [|reflexivity].
  unfold unregister_io_source. sub. destruct (mget _ _), ok; reflexivity.
Qed.
Lemma broker_sockets p ok x : io_sockets (fst (register_broker p ok x)) = io_sockets x.
Proof.
  unfold register_broker. sub. destruct (mget (length (io_brokers x)) (io_brokers x)); [reflexivity|].
  unfold dispense. sub. destruct (mget _ _); [|reflexivity]. destruct ok; cbn [negb]; [|reflexivity].
  unfold register_io_source. sub. destruct (mget _ _); reflexivity.
Qed.
Lemma exec_sockets o x : io_sockets x <= io_sockets (fst (io_exec o x)).
Proof.
  unfold io_exec. destruct o as [ok|obj ok|p ok|s a b|ok|ok|wf fo|t w c].
  - unfold register_listen_socket, dispense. destruct ok; cbn [negb]; [|cbn; lia].
    unfold register_io_source. sub. destruct (mget _ _); cbn; lia.
  - pose proof (broker_sockets obj ok x). destruct (register_broker obj ok x); cbn [fst] in *. lia.
  - pose proof (unbroker_sockets p ok x). destruct (unregister_broker p ok x); cbn [fst] in *. lia.
  - unfold add_psk_broker. destruct s as [obj|]; [|cbn; lia]. destruct (length (io_brokers x)) as [|n]; [cbn; lia|].
    pose proof (unbroker_sockets n a x). destruct (unregister_broker n a x) as [y [u|e|]]; cbn [fst] in *; try lia.
    pose proof (broker_sockets obj b y). destruct (register_broker obj b y) as [z [v|e|]]; cbn [fst] in *; lia.
  - unfold add_listener, dispense. destruct ok; cbn [negb]; [|cbn; lia].
    unfold register_io_source. sub. destruct (mget _ _); cbn; lia.
  - pose proof (add_connection_sockets ok x). destruct (add_connection ok x); cbn [fst] in *. lia.
  - pose proof (manager_keeps (fun y => io_sockets x <= io_sockets y) wf fo x) as K.
    destruct (poll_manager wf fo x) as [[y l] r]. cbn [fst] in *. apply K; [| |lia]; intros.
    + now rewrite add_connection_sockets.
    + now rewrite poll_conn_sockets.
  - unfold dispatch. destruct (mget t (io_index x)) as [[|i|p|i|i]|]; try (cbn; lia).
    + destruct (Nat.ltb i (io_sockets x)); cbn; lia.
    + destruct (mget p (io_brokers x)); cbn; lia.
    + unfold accept_from. destruct (Nat.ltb i (io_listeners x)); [|cbn; lia].
      pose proof (accept_all_keeps (fun y => io_sockets x <= io_sockets y) w x) as K.
      destruct (accept_all w x) as [y [v|e|]]; cbn [fst] in *; (apply K; [intros; now rewrite add_connection_sockets|lia]).
    + pose proof (poll_conn_sockets i c x).
      destruct (poll_particular_connection i c x) as [y [v|e|]]; cbn [fst] in *; lia.
Qed.
Lemma ops_sockets l : forall x, io_sockets x <= io_sockets (fst (io_ops l x)).
Proof.
  induction l as [|o l IH]; intros x; cbn [io_ops]; [cbn; lia|].
  pose proof (exec_sockets o x). destruct (io_exec o x) as [y [r|e|]]; cbn [fst] in *; try lia;
    specialize (IH y); lia.
Qed.

(** * What holds as long as every host name given to [add_peer] was resolved *)

(** Number of peers the engine, or what it is built from, has. *)
Definition engine_peers (c : site) : option nat :=
  match c with
  | Void => None
  | Building b => Some (length (b_peers b))
  | Product s => Some (length (s_peers s))
  end.

Record appinv (P : prims) (a : app) : Prop := {
  ai_count : forall n, engine_peers (a_site a) = Some n -> n = length (a_peers a);
  ai_reach : forall s, a_site a = Product s -> reachable P s;
  ai_bound : forall x s b, In x (a_peers a) -> ap_current x = Some (Bound s b) -> s < io_sockets (a_io a);
  ai_init : forall x s b, In x (a_peers a) -> ap_initial x <> Some (Bound s b)
}.

Lemma appinv_new P kp d n : appinv P (app_new kp d n).
Proof.
  split; cbn [app_new a_site a_peers a_io].
  - destruct kp as [[sk pk]|]; intros m [= <-]; reflexivity.
  - destruct kp as [[sk pk]|]; intros s [= <-]. apply initial_reachable. repeat eexists.
  - intros x s b [].
  - intros x s b [].
Qed.

Lemma site_add_spec P pp c : (forall s, c = Product s -> reachable P s) ->
  match site_add_peer P pp c with
  | (c', Ok n) => engine_peers c = Some n /\ engine_peers c' = Some (S n) /\ forall s, c' = Product s -> reachable P s
  | (c', Err _) => c' = c
  | (_, Panic) => False
  end.
Proof.
  intros R. unfold site_add_peer. destruct c as [|b|s].
  - reflexivity.
  - cbn. split; [reflexivity|]. split; [rewrite app_length; cbn; f_equal; lia|discriminate].
  - specialize (R s eq_refl).
    pose (c := {| c_now := 0%Z; c_coins := Demo.coin x00; c_op := OAddPeer (pp_psk pp) (pp_pk pp) (pp_alg pp) (pp_ds pp) |}).
    assert (valid c s) as V by (split; [apply Demo.wf_coin|exact Logic.I]).
    destruct (add_peer P (pp_psk pp) (pp_pk pp) (pp_alg pp) (pp_ds pp) s) as [s' r] eqn:E.
    assert (exec P c s = (s', match r with Ok n => Ok (RPeer n) | Err e => Err e | Panic => Panic end)) as X.
    { unfold exec, c. cbn [c_op]. unfold map_ok, bind. rewrite E. now destruct r. }
    pose proof (exec_step P c s s' _ (reachable_inv P s R) V X) as S.
    pose proof (reachable_exec P s c s' _ R V X) as R'.
    remember (match r with Ok n => Ok (RPeer n) | Err e => Err e | Panic => Panic end) as r1 eqn:Er.
    destruct S as [psk pk a ds Eo K|psk pk a ds Eo K| | |? ? ? ? Eo|? ? ? ? ? Eo|? ? Eo|? ? ? Eo|? ? Eo]; try discriminate.
    + destruct r; try discriminate. reflexivity.
    + destruct r as [n|e|]; try discriminate. injection Er as <-. cbn [engine_peers].
      split; [reflexivity|]. split.
      * cbn [s_peers Server.set_peers set_index]. rewrite app_length. unfold npeers. cbn. f_equal. lia.
      * intros s0 [= <-]. exact R'.
Qed.

Lemma supplies_spec P l : forall c, (forall s, c = Product s -> reachable P s) ->
  match supplies P l c with
  | (c', b) => b = false /\ (forall s, c' = Product s -> reachable P s) /\
      (c' = Void \/ engine_peers c' = engine_peers c) /\ (forall s, c = Product s -> c' = c)
  end.
Proof.
  induction l as [|[d fds] l IH]; intros c R; cbn [supplies]; [auto|].
  assert (match supply_keypair P d fds c with
          | (c', r) => r <> Panic /\ (forall s, c' = Product s -> reachable P s) /\
              (c' = Void \/ engine_peers c' = engine_peers c) /\ (forall s, c = Product s -> c' = c) end) as K.
  { destruct (supply_spec P d fds c) as [(_ & ->)|(sk & pk & _ & ->)].
    - split; [discriminate|]. auto.
    - destruct c as [|b|s].
      + split; [discriminate|]. split; [discriminate|]. auto.
      + destruct (C33_build_fails P d {| b_keypair := Some (sk, pk); b_peers := b_peers b |}) as (NP & _).
        destruct (build _ _ _) as [s|e|] eqn:E; [| |now elim NP].
        * destruct (C33_built_server P d _ s E) as (Rs & _ & L & _).
          split; [discriminate|]. split; [intros s0 [= <-]; exact Rs|]. split; [right|discriminate].
          cbn [engine_peers]. now rewrite L.
        * split; [discriminate|]. split; [discriminate|]. split; [auto|discriminate].
      + split; [discriminate|]. auto. }
  destruct (supply_keypair P d fds c) as [c1 r]. destruct K as (NP & R1 & Q1 & F1).
  specialize (IH c1 R1). destruct r; [| |now elim NP]; (destruct (supplies P l c1) as [c2 b];
    destruct IH as (-> & R2 & Q2 & F2); split; [reflexivity|]; split; [exact R2|]; split;
    [destruct Q2 as [->|Q2]; [now left|]; destruct Q1 as [->|Q1]; [|right; congruence];
     destruct c2; [now left|discriminate..]
    |intros s ->; rewrite (F1 s eq_refl) in F2; now apply F2 with (s := s)]).
Qed.

(** Endpoints that differ in scouting state only. *)
Definition same_hosts (e f : option endpoint) : Prop :=
  match e, f with
  | None, None => True
  | Some (Bound s a), Some (Bound t b) => s = t /\ a = b
  | Some (Discovery _ l), Some (Discovery _ m) => l = m
  | _, _ => False
  end.
Lemma same_hosts_refl e : same_hosts e e.
Proof. destruct e as [[]|]; cbn; auto. Qed.

Lemma ep_send_spec ok socks m e : match ep_send ok socks m e with
  | (e', t, r) =>
      same_hosts (Some e) (Some e') /\
      (forall f, In f t -> exists s a, f = Sent s a m /\ In a (addresses e) /\ s < socks /\ ok a s = true) /\
      (r = Panic -> exists s a, e = Bound s a /\ socks <= s) /\
      (r = Ok tt -> exists s a, t = [Sent s a m]) /\
      (r <> Ok tt -> t = [])
  end.
Proof.
  destruct e as [s a|st l]; cbn [ep_send].
  - destruct (Nat.ltb_spec s socks) as [L|L]; cbn [negb].
    + destruct (ok a s) eqn:E.
      * split; [cbn; auto|]. split; [|split; [discriminate|split; [eauto|congruence]]].
        intros f [<-|[]]. exists s, a. cbn. auto.
      * split; [cbn; auto|]. split; [intros f []|]. split; [discriminate|]. split; [discriminate|auto].
    + split; [cbn; auto|]. split; [intros f []|]. split; [eauto|]. split; [discriminate|auto].
  - set (acc := fun a s => match nth_error l a with Some x => ok x s | None => false end).
    destruct (try_addrs acc _ _) as [t r] eqn:E. destruct r as [[a s]|].
    + split; [cbn; auto|].
      assert (acc a s = true /\ In s (cycle_from (snd st) socks)) as (A & I).
      { clear - E. revert t E. generalize (cycle_from (fst st) (length l)) (cycle_from (snd st) socks). intros la.
        induction la as [|b la IH]; intros ls t E; cbn [try_addrs] in E; [discriminate|].
        destruct (try_sockets acc b ls) as [[t1 [s1|]] rest] eqn:F.
        - injection E as <- <- <-. clear IH. revert t1 rest F. induction ls as [|c ls IH]; intros t1 rest F; cbn [try_sockets] in F; [discriminate|].
          destruct (acc b c) eqn:G; [injection F as <- <- <-; cbn; auto|].
          destruct (try_sockets acc b ls) as [[t2 r2] rest2]. injection F as <- -> <-.
          destruct (IH _ _ eq_refl). cbn. auto.
        - destruct (try_addrs acc la rest) as [t2 r2] eqn:H. injection E as <- ->. destruct (IH _ _ H) as (A & I).
          split; [exact A|]. clear - F I. revert t1 rest F I. induction ls as [|c ls IH]; intros t1 rest F I; cbn [try_sockets] in F.
          + injection F as <- <-. destruct I.
          + destruct (acc b c); [discriminate|]. destruct (try_sockets acc b ls) as [[t2 r2] rest2].
            injection F as <- -> <-. right. eapply IH; eauto. }
      unfold acc in A. destruct (nth_error l a) as [x|] eqn:X; [|discriminate].
      split; [|split; [discriminate|split; [eauto|congruence]]].
      intros f [<-|[]]. exists s, x. split; [reflexivity|]. split; [cbn; eapply nth_error_In; eauto|].
      split; [|exact A]. unfold cycle_from in I. apply in_map_iff in I. destruct I as (i & <- & Hi).
      apply in_seq in Hi. apply Nat.mod_upper_bound. lia.
    + split; [cbn; auto|]. split; [intros f []|]. split; [discriminate|]. split; [discriminate|auto].
Qed.

(** * The pieces of a turn *)

Definition lift (r : res app_err unit) : res app_err bool :=
  match r with Ok _ => Ok false | Err e => Err e | Panic => Panic end.
Definition poll_call (u : turn) : call := {| c_now := fst (u_poll u); c_coins := snd (u_poll u); c_op := OPoll |}.
Definition next_call (u : turn) (o : op) : call :=
  {| c_now := fst (u_call u); c_coins := snd (u_call u); c_op := o |}.
Definition msg_op (u : turn) (load : bool) (rx : bytes) (socket : nat) (from : sockaddr) : op :=
  if load then OLoad rx (u_tx u) (endpoint_bytes (N.of_nat socket) from) else OMsg rx (u_tx u).

(** The application after [try_recv]. *)
Definition after_recv (P : prims) (u : turn) (a : app) : app :=
  set_load (u_load u) (set_site (fst (supplies P (u_supply u) (a_site a))) (set_io (fst (io_ops (u_ops u) (a_io a))) a)).

Inductive view (P : prims) (u : turn) (a : app) : app -> calls -> list effect -> res app_err bool -> Prop :=
| v_send p q o s s1 a' cs t r : a_site a = Product s ->
    exec P (poll_call u) s = (s1, Ok (RPolled q)) ->
    (q = SendInitiation p /\ o = OInitiate p (u_tx u) \/ q = SendRetransmission p /\ o = ORetransmit p (u_tx u)) ->
    tx_maybe_with P u p o s1 (set_site (Product s1) a) = (a', cs, t, r) ->
    view P u a a' ((poll_call u, Ok (RPolled q)) :: cs) t (lift r)
| v_delete p s s1 a' t r : a_site a = Product s ->
    exec P (poll_call u) s = (s1, Ok (RPolled (DeleteKey p))) ->
    delete_key P u p s1 (set_site (Product s1) a) = (a', [], t, r) ->
    view P u a a' [(poll_call u, Ok (RPolled (DeleteKey p)))] t (lift r)
| v_quiet a0 cs0 r :
    (exists s s1 d, a_site a = Product s /\ exec P (poll_call u) s = (s1, Ok (RPolled (Sleep d))) /\
       a0 = set_site (Product s1) a /\ cs0 = [(poll_call u, Ok (RPolled (Sleep d)))]) \/
    ((forall s, a_site a <> Product s) /\ a0 = a /\ cs0 = []) ->
    (if snd (io_ops (u_ops u) (a_io a)) then r = Panic else r <> Panic) ->
    (forall e, r = Err e -> u_recv u = RFailed) -> (r = Ok true -> u_recv u = RTerminate) ->
    (r <> Panic -> forall rx sock from s2, u_recv u = RDatagram rx sock from -> a_site (after_recv P u a0) <> Product s2) ->
    view P u a (after_recv P u a0) cs0 [] r
| v_msg a0 cs0 s2 rx sock from a' cs t r :
    (exists s s1 d, a_site a = Product s /\ exec P (poll_call u) s = (s1, Ok (RPolled (Sleep d))) /\
       a0 = set_site (Product s1) a /\ cs0 = [(poll_call u, Ok (RPolled (Sleep d)))]) \/
    ((forall s, a_site a <> Product s) /\ a0 = a /\ cs0 = []) ->
    snd (io_ops (u_ops u) (a_io a)) = false ->
    u_recv u = RDatagram rx sock from ->
    a_site (after_recv P u a0) = Product s2 ->
    receive P u rx sock from s2 (after_recv P u a0) = (a', cs, t, r) ->
    view P u a a' (cs0 ++ cs) t (lift r).

Lemma turn_view P u a a' cs t r : appinv P a -> turn_ok u a -> app_turn P u a = (a', cs, t, r) ->
  view P u a a' cs t r.
Proof.
  intros I (Wp & Wc & Wt & _) E. unfold app_turn in E.
  assert (forall a0 cs0 d, (0 < d)%Z -> a_io a0 = a_io a ->
    (forall s, a_site a0 = Product s -> reachable P s) ->
    (exists s s1 d, a_site a = Product s /\ exec P (poll_call u) s = (s1, Ok (RPolled (Sleep d))) /\
       a0 = set_site (Product s1) a /\ cs0 = [(poll_call u, Ok (RPolled (Sleep d)))]) \/
    ((forall s, a_site a <> Product s) /\ a0 = a /\ cs0 = []) ->
    match app_recv P d u a0 with
    | (a, Ok RTerminate) => (a, cs0, [], Ok true)
    | (a, Ok (RDatagram rx sock from)) =>
        match a_site a with
        | Product s => let '(a, cs', t, r) := receive P u rx sock from s a in
            (a, cs0 ++ cs', t, match r with Ok _ => Ok false | Err e => Err e | Panic => Panic end)
        | _ => (a, cs0, [], Ok false)
        end
    | (a, Ok _) => (a, cs0, [], Ok false)
    | (a, Err e) => (a, cs0, [], Err e)
    | (a, Panic) => (a, cs0, [], Panic)
    end = (a', cs, t, r) -> view P u a a' cs t r) as K.
  { intros a0 cs0 d Hd Ei Hr H F. unfold app_recv in F.
    destruct (Z.ltb_spec d 0); [lia|]. destruct (Z.eqb_spec d 0); [lia|].
    rewrite Ei in F. pose proof (v_quiet P u a a0 cs0) as Q. pose proof (v_msg P u a a0 cs0) as M.
    unfold after_recv in *. rewrite Ei in Q, M.
    pose proof (supplies_spec P (u_supply u) (a_site a0) Hr) as SS.
    destruct (io_ops (u_ops u) (a_io a)) as [x b1]. destruct (supplies P (u_supply u) (a_site a0)) as [c b2].
    destruct SS as (-> & _). cbn [fst snd] in *.
    destruct b1; cbn [orb] in F.
    - injection F as <- <- <- <-. apply Q; auto; discriminate.
    - destruct (u_recv u) as [| |rx sock from|] eqn:Er.
      + injection F as <- <- <- <-. apply Q; [auto|discriminate|discriminate||auto|discriminate||auto|intros _ ? ? ? ? ?; congruence].
      + injection F as <- <- <- <-. apply Q; [auto|discriminate|discriminate||auto|discriminate||auto|intros _ ? ? ? ? ?; congruence].
      + destruct (a_site _) as [|b|s2] eqn:Es in F.
        * injection F as <- <- <- <-. apply Q; [auto|discriminate|discriminate||auto|discriminate||auto|intros _ ? ? ? ? ?; congruence].
        * injection F as <- <- <- <-. apply Q; [auto|discriminate|discriminate||auto|discriminate||auto|intros _ ? ? ? ? ?; congruence].
        * destruct (receive P u rx sock from s2 _) as [[[a1 cs1] t1] r1] eqn:Ev in F.
          injection F as <- <- <- <-. change (match r1 with Ok _ => Ok false | Err e => Err e | Panic => Panic end) with (lift r1).
          eapply M; eauto.
      + injection F as <- <- <- <-. apply Q; [auto|discriminate|discriminate||auto|discriminate||auto|intros _ ? ? ? ? ?; congruence]. }
  destruct (a_site a) as [|b|s] eqn:Es.
  1,2: eapply (K a [] UNENDING); [reflexivity|reflexivity|rewrite Es; discriminate|right; split; [intros s; discriminate|auto]|exact E].
  pose proof (ai_reach P a I s Es) as R.
  change {| c_now := fst (u_poll u); c_coins := snd (u_poll u); c_op := OPoll |} with (poll_call u) in E.
  destruct (exec P (poll_call u) s) as [s1 r1] eqn:Ex.
  assert (valid (poll_call u) s) as V by (split; [exact Wp|exact Logic.I]).
  destruct (poll_result P s (poll_call u) s1 r1 R V eq_refl Ex) as (R1 & N1 & q & -> & B).
  destruct q as [d|p|p|p].
  - eapply (K (set_site (Product s1) a) _ d); [lia|reflexivity| |left; eauto 10|exact E].
    intros s2 [= <-]. exact R1.
  - destruct (delete_key P u p s1 _) as [[[a1 cs1] t1] r2] eqn:D. injection E as <- <- <- <-.
    assert (cs1 = []) as ->.
    { unfold delete_key in D. destruct (output_key _ _ _ _ _ _ _) as [t3 [v|e|]]; [destruct (nth_error _ _)|..]; congruence. }
    eapply v_delete; eauto.
  - destruct (tx_maybe_with P u p _ s1 _) as [[[a1 cs1] t1] r2] eqn:D. injection E as <- <- <- <-.
    eapply v_send; eauto.
  - destruct (tx_maybe_with P u p _ s1 _) as [[[a1 cs1] t1] r2] eqn:D. injection E as <- <- <- <-.
    eapply v_send; eauto.
Qed.

(** Sending an initiation or a retransmission. *)
Lemma tx_spec P u p o s a a' cs t r :
  reachable P s -> length (s_peers s) = length (a_peers a) -> a_site a = Product s -> turn_ok u a ->
  p < length (s_peers s) -> (o = OInitiate p (u_tx u) \/ o = ORetransmit p (u_tx u)) ->
  tx_maybe_with P u p o s a = (a', cs, t, r) ->
  exists x, nth_error (a_peers a) p = Some x /\
  ((ap_endpoint x = None /\ a' = a /\ cs = [] /\ t = [] /\ r = Ok tt) \/
   exists e s' q, ap_endpoint x = Some e /\ exec P (next_call u o) s = (s', q) /\ cs = [(next_call u o, q)] /\
     reachable P s' /\ length (s_peers s') = length (s_peers s) /\
     a_site a' = Product s' /\ a_io a' = a_io a /\ a_under_load a' = a_under_load a /\
     ((exists er, q = Err er /\ t = [] /\ r = Err (AEngine er) /\ a_peers a' = a_peers a) \/
      (exists m e', q = Ok (RSent m) /\ ep_send (u_sends u) (io_sockets (a_io a)) m e = (e', t, r) /\
         a_peers a' = upd p (put_endpoint e' x) (a_peers a)))).
Proof.
  intros R L Es (Wp & Wc & Wt & _) Hp Ho E. unfold tx_maybe_with in E.
  destruct (nth_error (a_peers a) p) as [x|] eqn:X.
  2:{ apply nth_error_None in X. lia. }
  exists x. split; [reflexivity|].
  destruct (ap_endpoint x) as [e|].
  2:{ injection E as <- <- <- <-. left. auto. }
  right. change {| c_now := fst (u_call u); c_coins := snd (u_call u); c_op := o |} with (next_call u o) in E.
  assert (valid (next_call u o) s) as V.
  { split; [exact Wc|]. destruct Ho as [->| ->]; cbn; auto. }
  destruct (exec P (next_call u o) s) as [s' q] eqn:X1.
  pose proof (reachable_exec P s _ s' q R V X1) as R'.
  pose proof (exec_npeers P _ s s' q (reachable_inv P s R) V X1) as N.
  assert (npeers s' = npeers s) as N' by (destruct Ho as [->| ->]; exact N). clear N.
  pose proof (C05_next_call P s _ R V) as NP. rewrite X1 in NP. cbn [snd] in NP.
  assert ((exists m, q = Ok (RSent m)) \/ exists er, q = Err er) as Q.
  { unfold exec in X1. destruct Ho as [->| ->]; cbn [next_call c_op] in X1; apply map_ok_run in X1;
      destruct X1 as ([m|er|] & _ & ->); eauto; now elim NP. }
  exists e, s', q. split; [reflexivity|]. split; [reflexivity|].
  destruct Q as [(m & ->)|(er & ->)].
  - destruct (ep_send _ _ m e) as [[e' t1] r1] eqn:F. injection E as <- <- <- <-.
    repeat (split; [reflexivity||exact R'||exact N'|]). right. exists m, e'. auto.
  - injection E as <- <- <- <-. repeat (split; [reflexivity||exact R'||exact N'|]). left. eauto.
Qed.

(** What delivering key [k] of peer number [p], with identity [pid], to its sinks means. *)
Definition delivery (x : app_peer) (p : nat) (pid : bytes) (why : reason) (k : bytes) : list effect :=
  match ap_outfile x with Some f => [KeyFile f k; KeyLine f pid why] | None => [] end ++
  match ap_broker x with Some b => [SetPsk b p k] | None => [] end.

Lemma output_spec P u p why k s a t r :
  p < length (s_peers s) -> length (s_peers s) = length (a_peers a) ->
  output_key P u p why k s a = (t, r) ->
  exists sp x, nth_error (s_peers s) p = Some sp /\ nth_error (a_peers a) p = Some x /\
    (exists rest, delivery x p (pidt P sp) why k = t ++ rest) /\
    (r = Ok tt -> t = delivery x p (pidt P sp) why k) /\
    (r = Panic -> exists b, ap_broker x = Some b /\ mget b (io_brokers (a_io a)) = None) /\
    (u_file u = true -> u_line u = true -> u_psk u = true -> r = Panic \/ r = Ok tt).
Proof.
  intros Hp L E. unfold output_key in E.
  destruct (nth_error (s_peers s) p) as [sp|] eqn:S. 2:{ apply nth_error_None in S. lia. }
  destruct (nth_error (a_peers a) p) as [x|] eqn:X. 2:{ apply nth_error_None in X. lia. }
  exists sp, x. split; [reflexivity|]. split; [reflexivity|]. unfold delivery.
  assert (match set_psk u p k x a with
          | (t, r) =>
             (exists rest, match ap_broker x with Some b => [SetPsk b p k] | None => [] end = t ++ rest) /\
             (r = Ok tt -> t = match ap_broker x with Some b => [SetPsk b p k] | None => [] end) /\
             (r = Panic -> exists b, ap_broker x = Some b /\ mget b (io_brokers (a_io a)) = None) /\
             (u_psk u = true -> r = Panic \/ r = Ok tt) end) as K.
  { unfold set_psk. destruct (ap_broker x) as [b|].
    2:{ split; [exists []; reflexivity|]. split; [auto|]. split; [discriminate|auto]. }
    destruct (mget b (io_brokers (a_io a))) eqn:M.
    2:{ split; [eexists; reflexivity|]. split; [discriminate|]. split; [eauto|auto]. }
    destruct (u_psk u).
    - split; [exists []; reflexivity|]. split; [auto|]. split; [discriminate|auto].
    - split; [eexists; reflexivity|]. split; [discriminate|]. split; discriminate. }
  destruct (set_psk u p k x a) as [t1 r1]. destruct K as ((rest & K1) & K2 & K3 & K4).
  destruct (ap_outfile x) as [f|].
  - destruct (u_file u); cbn [negb] in E.
    2:{ injection E as <- <-. split; [eexists; reflexivity|]. split; [discriminate|]. split; discriminate. }
    destruct (u_line u); cbn [negb] in E.
    2:{ injection E as <- <-. split; [eexists; reflexivity|]. split; [discriminate|]. split; discriminate. }
    injection E as <- <-. cbn [List.app]. split; [exists rest; rewrite K1; reflexivity|].
    split; [intros H; now rewrite <- (K2 H)|]. split; [exact K3|auto].
  - injection E as <- <-. cbn [List.app]. split; [exists rest; exact K1|]. auto.
Qed.

(** Handling a datagram. *)
Lemma receive_spec P u rx sock from s a a' cs t r :
  reachable P s -> length (s_peers s) = length (a_peers a) -> a_site a = Product s ->
  wf_coins (snd (u_call u)) -> 1100 <= length (u_tx u) -> sock < io_sockets (a_io a) ->
  receive P u rx sock from s a = (a', cs, t, r) ->
  let c := next_call u (msg_op u (a_under_load a) rx sock from) in
  exists s' q, exec P c s = (s', q) /\ reachable P s' /\ length (s_peers s') = length (s_peers s) /\
    a_site a' = Product s' /\ a_io a' = a_io a /\ a_under_load a' = a_under_load a /\
    ((exists e, q = Err e /\ cs = [(c, q)] /\ t = [] /\ r = Ok tt /\ a_peers a' = a_peers a) \/
     exists h, q = Ok (RHandled h) /\
       ((exists m, mr_resp h = Some m /\ u_sends u from sock = false /\ cs = [(c, q)] /\ t = [] /\ r = Err ASend /\
                   a_peers a' = a_peers a) \/
        exists t1,
          ((mr_resp h = None /\ t1 = []) \/
           (exists m, mr_resp h = Some m /\ u_sends u from sock = true /\ t1 = [Sent sock from m])) /\
          ((mr_exchanged h = None /\ cs = [(c, q)] /\ t = t1 /\ r = Ok tt /\ a_peers a' = a_peers a) \/
           exists p x k t2, mr_exchanged h = Some p /\ p < length (s_peers s') /\ nth_error (a_peers a) p = Some x /\
             key_at P s' p k /\ cs = [(c, q); (next_call u (OOsk p), Ok (RKey k))] /\
             a_peers a' = upd p (set_current (Some (Bound sock from)) x) (a_peers a) /\
             output_key P u p Exchanged k s' a' = (t2, r) /\ t = t1 ++ t2))).
Proof.
  intros R L Es Wc Wt Hs E c. unfold receive in E.
  change (if a_under_load a then OLoad rx (u_tx u) (endpoint_bytes (N.of_nat sock) from) else OMsg rx (u_tx u))
    with (msg_op u (a_under_load a) rx sock from) in E.
  change {| c_now := fst (u_call u); c_coins := snd (u_call u); c_op := msg_op u (a_under_load a) rx sock from |} with c in E.
  assert (valid c s) as V.
  { split; [exact Wc|]. unfold c, msg_op, next_call. cbn [c_op]. destruct (a_under_load a); exact Wt. }
  destruct (exec P c s) as [s' q] eqn:X1.
  pose proof (reachable_exec P s c s' q R V X1) as R'.
  pose proof (exec_npeers P c s s' q (reachable_inv P s R) V X1) as N.
  assert (npeers s' = npeers s) as N'.
  { unfold c, msg_op, next_call in N. cbn [c_op] in N. destruct (a_under_load a); exact N. } clear N.
  pose proof (C05_next_call P s c R V) as NP. rewrite X1 in NP. cbn [snd] in NP.
  assert ((exists h, q = Ok (RHandled h)) \/ exists e, q = Err e) as Q.
  { unfold exec, c, msg_op, next_call in X1. cbn [c_op] in X1. destruct (a_under_load a); apply map_ok_run in X1;
      destruct X1 as ([m|er|] & _ & ->); eauto; now elim NP. }
  exists s', q. split; [reflexivity|]. split; [exact R'|]. split; [exact N'|].
  destruct Q as [(h & ->)|(e & ->)].
  2:{ injection E as <- <- <- <-. repeat (split; [reflexivity|]). left. eauto 10. }
  assert (exists t1 q1, match mr_resp h with
     | None => ([], Ok tt)
     | Some m => let '(_, t, q) := ep_send (u_sends u) (io_sockets (a_io (set_site (Product s') a))) m (Bound sock from) in (t, q)
     end = (t1, q1) /\
     ((q1 = Ok tt /\ ((mr_resp h = None /\ t1 = []) \/
           (exists m, mr_resp h = Some m /\ u_sends u from sock = true /\ t1 = [Sent sock from m]))) \/
      (q1 = Err ASend /\ t1 = [] /\ exists m, mr_resp h = Some m /\ u_sends u from sock = false))) as (t1 & q1 & Eq1 & K).
  { destruct (mr_resp h) as [m|]; [|eauto 10]. cbn [ep_send set_site a_io].
    destruct (Nat.ltb_spec sock (io_sockets (a_io a))); [|lia]. cbn [negb].
    destruct (u_sends u from sock); eauto 12. }
  rewrite Eq1 in E. destruct K as [(-> & K)|(-> & -> & m & Em & Eu)].
  2:{ injection E as <- <- <- <-. repeat (split; [reflexivity|]). right. exists h. split; [reflexivity|]. left. eauto 10. }
  destruct (mr_exchanged h) as [p|] eqn:Ep.
  2:{ injection E as <- <- <- <-. repeat (split; [reflexivity|]). right. exists h. split; [reflexivity|]. right.
      exists t1. split; [exact K|]. left. auto 10. }
  destruct (exchanged_session P s c s' h p R V X1 Ep) as (sp & Sp & Hses).
  assert (p < length (s_peers s')) as Hp by (apply nth_error_Some; congruence).
  cbn [set_site a_peers] in E.
  destruct (nth_error (a_peers a) p) as [x|] eqn:X.
  2:{ apply nth_error_None in X. unfold npeers in N'. lia. }
  destruct (p_session sp) as [ses|] eqn:Hsp; [|congruence].
  pose proof (osk_of P s' p sp ses Sp Hsp) as Kk.
  set (k := hmix P (se_alg ses) (se_ck ses) (ds_compress P (p_alg sp) (p_ds sp))) in *. clearbody k.
  change {| c_now := fst (u_call u); c_coins := snd (u_call u); c_op := OOsk p |} with (next_call u (OOsk p)) in E.
  rewrite (Kk (next_call u (OOsk p)) (conj Wc Hp) eq_refl) in E.
  destruct (output_key P u p Exchanged k s' _) as [t2 q2] eqn:O. injection E as <- <- <- <-.
  repeat (split; [reflexivity|]). right. exists h. split; [reflexivity|]. right. exists t1. split; [exact K|]. right.
  exists p, x, k, t2. repeat (split; [reflexivity||assumption|]). reflexivity.
Qed.

Lemma put_current e x : ap_current (put_endpoint e x) = match ap_current x with Some _ => Some e | None => None end.
Proof. unfold put_endpoint. destruct (ap_current x) eqn:E; [reflexivity|]. cbn. exact E. Qed.
Lemma put_initial e x : ap_initial (put_endpoint e x) = match ap_current x with Some _ => ap_initial x | None => Some e end.
Proof. unfold put_endpoint. destruct (ap_current x); reflexivity. Qed.

Lemma multiple_not_bound e f s a : discovery_from_multiple_sources e f <> Some (Bound s a).
Proof. destruct e, f; discriminate. Qed.

Lemma in_upd {A} p (y : A) l x : In x (upd p y l) -> x = y \/ In x l.
Proof.
  revert p. induction l as [|z l IH]; intros [|p] H; cbn [upd] in H; auto.
  - destruct H as [->|H]; cbn; auto.
  - destruct H as [->|H]; cbn; auto. destruct (IH _ H); auto.
Qed.

(** Same engine state up to reachable steps without new peers. *)
Lemma appinv_step P a a' s s' :
  appinv P a -> a_site a = Product s -> a_site a' = Product s' -> reachable P s' ->
  length (s_peers s') = length (s_peers s) -> a_io a' = a_io a -> length (a_peers a') = length (a_peers a) ->
  (forall x, In x (a_peers a') -> In x (a_peers a) \/
     (forall k b, ap_current x = Some (Bound k b) -> k < io_sockets (a_io a)) /\
     (forall k b, ap_initial x <> Some (Bound k b))) ->
  appinv P a'.
Proof.
  intros I Es Es' R L Ei Lp H. split.
  - intros n En. rewrite Es' in En. cbn in En. injection En as <-.
    rewrite L, Lp. apply (ai_count P a I). now rewrite Es.
  - intros s2 E2. rewrite Es' in E2. injection E2 as <-. exact R.
  - intros x k b Hx Hc. rewrite Ei. destruct (H x Hx) as [Hi|[K _]]; [|eauto]. eapply (ai_bound P a I); eauto.
  - intros x k b Hx. destruct (H x Hx) as [Hi|[_ K]]; [|eauto]. apply (ai_init P a I x k b Hi).
Qed.

Lemma appinv_site P a s s' : appinv P a -> a_site a = Product s -> reachable P s' ->
  length (s_peers s') = length (s_peers s) -> appinv P (set_site (Product s') a).
Proof. intros I Es R L. eapply (appinv_step P a _ s s'); eauto. Qed.

Lemma after_recv_inv P u a : appinv P a -> appinv P (after_recv P u a).
Proof.
  intros I. pose proof (supplies_spec P (u_supply u) (a_site a) (ai_reach P a I)) as S.
  unfold after_recv. destruct (supplies P (u_supply u) (a_site a)) as [c b]. destruct S as (_ & R & Q & _).
  cbn [fst]. split; cbn [set_load set_site set_io a_site a_peers a_io].
  - intros n E. destruct Q as [->|Q]; [discriminate|]. apply (ai_count P a I). congruence.
  - exact R.
  - intros x s e Hx Hc. pose proof (ops_sockets (u_ops u) (a_io a)). pose proof (ai_bound P a I x s e Hx Hc). lia.
  - apply (ai_init P a I).
Qed.

(** The state in which [try_recv] starts. *)
Lemma before_recv P u a a0 (cs0 : calls) : appinv P a -> turn_ok u a ->
  (exists s s1 d, a_site a = Product s /\ exec P (poll_call u) s = (s1, Ok (RPolled (Sleep d))) /\
       a0 = set_site (Product s1) a /\ cs0 = [(poll_call u, Ok (RPolled (Sleep d)))]) \/
    ((forall s, a_site a <> Product s) /\ a0 = a /\ cs0 = []) ->
  appinv P a0 /\ a_io a0 = a_io a /\ a_peers a0 = a_peers a.
Proof.
  intros I (Wp & _) [(s & s1 & d & Es & Ex & -> & _)|(_ & -> & _)]; [|auto].
  split; [|auto]. destruct (poll_result P s (poll_call u) s1 _ (ai_reach P a I s Es) (conj Wp Logic.I) eq_refl Ex) as (R1 & N1 & _).
  eapply appinv_site; eauto.
Qed.

Lemma turn_inv P u a a' cs t r : appinv P a -> turn_ok u a -> app_turn P u a = (a', cs, t, r) -> appinv P a'.
Proof.
  intros I W E. pose proof (turn_view P u a a' cs t r I W E) as V. clear E.
  assert (forall p s, a_site a = Product s -> p < npeers s -> p < length (a_peers a)) as HP.
  { intros p s Es Hp. rewrite <- (ai_count P a I (npeers s)); [exact Hp|]. now rewrite Es. }
  destruct V as [p q o s s1 a1 cs1 t1 r1 Es Ex Hq Et|p s s1 a1 t1 r1 Es Ex Ed|a0 cs0 r0 H0 _ _ _ _|a0 cs0 s2 rx sock from a1 cs1 t1 r1 H0 Hn Hr Hs2 Ev].
  - destruct (poll_result P s (poll_call u) s1 _ (ai_reach P a I s Es) (conj (proj1 W) Logic.I) eq_refl Ex) as (R1 & N1 & q' & [= <-] & B).
    pose proof (appinv_site P a s s1 I Es R1 N1) as I1.
    assert (p < npeers s) as Hp by (destruct Hq as [(-> & _)|(-> & _)]; exact B).
    assert (length (s_peers s1) = length (a_peers a)) as L1 by (apply (ai_count P _ I1); reflexivity).
    destruct (tx_spec P u p o s1 (set_site (Product s1) a) a1 cs1 t1 r1 R1 L1 eq_refl W) as (x & X & K).
    { unfold npeers in *. congruence. } { destruct Hq as [(_ & ->)|(_ & ->)]; auto. } { exact Et. }
    cbn [set_site a_peers a_io] in X.
    destruct K as [(_ & -> & _)|(e & s' & q' & He & Ex' & _ & R' & L' & Es' & Ei & _ & K)]; [exact I1|].
    eapply (appinv_step P _ a1 s1 s'); [exact I1|reflexivity|exact Es'|exact R'|exact L'|exact Ei| |].
    + destruct K as [(er & _ & _ & _ & ->)|(m & e' & _ & _ & ->)]; [reflexivity|apply upd_length].
    + destruct K as [(er & _ & _ & _ & ->)|(m & e' & _ & F & ->)]; [auto|].
      intros y Hy. apply in_upd in Hy. destruct Hy as [->|Hy]; [right|now left].
      cbn [set_site a_io a_peers] in *.
      pose proof (ep_send_spec (u_sends u) (io_sockets (a_io a)) m e) as S. rewrite F in S. destruct S as (S & _).
      rewrite put_current, put_initial. unfold ap_endpoint in He. pose proof (nth_error_In _ _ X) as Hx.
      destruct (ap_current x) as [c|] eqn:C.
      * injection He as ->. split; [|intros k b; apply (ai_init P a I x k b Hx)].
        intros k b [= ->]. destruct e as [s0 a0|]; [|destruct S]. cbn in S. destruct S as (-> & ->).
        apply (ai_bound P a I x k b Hx C).
      * split; [discriminate|]. intros k b [= ->]. destruct e as [s0 a0|]; [|destruct S].
        apply (ai_init P a I x s0 a0 Hx He).
  - destruct (poll_result P s (poll_call u) s1 _ (ai_reach P a I s Es) (conj (proj1 W) Logic.I) eq_refl Ex) as (R1 & N1 & q' & [= <-] & Hp).
    pose proof (appinv_site P a s s1 I Es R1 N1) as I1.
    unfold delete_key in Ed. destruct (output_key P u p Stale (u_random u) s1 _) as [t2 [v|e|]]; try (injection Ed as <- _ _; exact I1).
    cbn [set_site a_peers] in Ed. destruct (nth_error (a_peers a) p) as [x|] eqn:X; injection Ed as <- _ _; [|exact I1].
    eapply (appinv_step P _ _ s1 s1); [exact I1|reflexivity|reflexivity|exact R1|reflexivity|reflexivity| |].
    + apply upd_length.
    + intros y Hy. cbn [set_peers a_peers set_site] in *. apply in_upd in Hy. destruct Hy as [->|Hy]; [right|now left].
      cbn [set_current ap_current ap_initial]. split.
      * intros k b H. now apply multiple_not_bound in H.
      * intros k b. apply (ai_init P a I x k b). eapply nth_error_In; eauto.
  - destruct (before_recv P u a a0 cs0 I W H0) as (I0 & _). now apply after_recv_inv.
  - destruct (before_recv P u a a0 cs0 I W H0) as (I0 & Ei & _).
    pose proof (after_recv_inv P u a0 I0) as I2.
    destruct W as (_ & Wc & Wt & Ws). rewrite Hr in Ws.
    assert (sock < io_sockets (a_io (after_recv P u a0))) as Hs.
    { unfold after_recv. cbn [set_load set_site set_io a_io]. pose proof (ops_sockets (u_ops u) (a_io a0)). rewrite Ei in *. lia. }
    assert (length (s_peers s2) = length (a_peers (after_recv P u a0))) as L2 by (apply (ai_count P _ I2); rewrite Hs2; reflexivity).
    destruct (receive_spec P u rx sock from s2 _ a1 cs1 t1 r1 (ai_reach P _ I2 s2 Hs2) L2 Hs2 Wc Wt Hs Ev)
      as (s' & q & Ex & R' & L' & Es' & Ei' & _ & K).
    assert (a_peers a1 = a_peers (after_recv P u a0) \/
            exists p x, nth_error (a_peers (after_recv P u a0)) p = Some x /\
              a_peers a1 = upd p (set_current (Some (Bound sock from)) x) (a_peers (after_recv P u a0))) as K'.
    { destruct K as [(e & _ & _ & _ & _ & K)|(h & _ & [(m & _ & _ & _ & _ & _ & K)|(t2 & _ & [(_ & _ & _ & _ & K)|(p & x & k & t3 & _ & _ & X & _ & _ & K & _)])])]; eauto. }
    clear K. eapply (appinv_step P _ a1 s2 s'); [exact I2|exact Hs2|exact Es'|exact R'|exact L'|exact Ei'| |].
    + destruct K' as [->|(p & x & _ & ->)]; [reflexivity|apply upd_length].
    + destruct K' as [->|(p & x & X & ->)]; [auto|]. intros y Hy. apply in_upd in Hy. destruct Hy as [->|Hy]; [right|now left].
      cbn [set_current ap_current ap_initial]. split.
      * intros k b [= -> ->]. exact Hs.
      * intros k b. apply (ai_init P _ I2 x k b). eapply nth_error_In; eauto.
Qed.

(** A host name that is not resolved. *)
Definition lookup_fails (o : app_op) : Prop :=
  match o with PAdd _ _ _ (Some None) => True | _ => False end.

Lemma add_spec P pp f b host a a' r : appinv P a -> app_add_peer P pp f b host a = (a', r) ->
  match r with
  | Ok n => n = length (a_peers a) /\ engine_peers (a_site a) = Some n /\
      engine_peers (a_site a') = Some (S n) /\ length (a_peers a') = S n /\ host <> Some None
  | Err ALookup => host = Some None /\ engine_peers (a_site a) = Some (length (a_peers a)) /\
      engine_peers (a_site a') = Some (S (length (a_peers a))) /\ a_peers a' = a_peers a /\
      (forall s, a_site a' = Product s -> reachable P s)
  | Err _ => a' = a
  | Panic => False
  end /\ (host <> Some None -> appinv P a').
Proof.
  intros I E. unfold app_add_peer in E. pose proof (site_add_spec P pp (a_site a) (ai_reach P a I)) as S.
  destruct (site_add_peer P pp (a_site a)) as [c [n|e|]]; [| |destruct S].
  2:{ subst c. injection E as <- <-. cbn [set_site]. destruct a; cbn. split; [reflexivity|]. intros _. exact I. }
  destruct S as (En & En' & R). pose proof (ai_count P a I n En) as Hn.
  cbn [set_site a_peers] in E. rewrite Hn, Nat.eqb_refl in E. cbn [negb] in E.
  destruct host as [[l|]|].
  2:{ injection E as <- <-. cbn [set_site a_site a_peers]. subst n. split; [auto 10|]. now intros []. }
  all: injection E as <- <-; cbn [set_site set_peers a_site a_peers]; rewrite app_length; cbn [length]; subst n;
    split; [split; [reflexivity|]; split; [exact En|]; split; [exact En'|]; split; [lia|discriminate]|]; intros _;
    split; cbn [set_site set_peers a_site a_peers a_io].
  all: try (intros m Em; rewrite En' in Em; injection Em as <-; rewrite app_length; cbn; lia).
  all: try exact R.
  - intros x s e Hx Hc. apply in_app_iff in Hx. destruct Hx as [Hx|[<-|[]]]; [|discriminate]. eapply (ai_bound P a I); eauto.
  - intros x s e Hx. apply in_app_iff in Hx. destruct Hx as [Hx|[<-|[]]]; [|discriminate]. apply (ai_init P a I x s e Hx).
  - intros x s e Hx Hc. apply in_app_iff in Hx. destruct Hx as [Hx|[<-|[]]]; [|discriminate]. eapply (ai_bound P a I); eauto.
  - intros x s e Hx. apply in_app_iff in Hx. destruct Hx as [Hx|[<-|[]]]; [|discriminate]. apply (ai_init P a I x s e Hx).
Qed.

Lemma exec_appinv P o a a' r : appinv P a -> app_valid o a -> ~ lookup_fails o -> app_exec P o a = (a', r) -> appinv P a'.
Proof.
  intros I V NL E. destruct o as [pp f b host|u]; cbn [app_exec] in E.
  - destruct (app_add_peer P pp f b host a) as [a1 r1] eqn:A. injection E as <- <-.
    apply (proj2 (add_spec P pp f b host a a1 r1 I A)). intros ->. apply NL. exact Logic.I.
  - destruct (app_turn P u a) as [[[a1 cs] t] r1] eqn:T. injection E as <- <-. eapply turn_inv; eauto.
Qed.

Lemma run_appinv P a h a' : app_run P a h a' -> (forall o r, In (o, r) h -> ~ lookup_fails o) -> appinv P a -> appinv P a'.
Proof.
  induction 1 as [a|a o a1 r h a2 V E NP R IH]; intros NL I; [exact I|].
  apply IH; [intros; eapply NL; right; eauto|]. eapply exec_appinv; eauto. eapply NL. now left.
Qed.

(** States of a server whose host names were all resolved. *)
Definition settled (P : prims) (a : app) : Prop :=
  exists kp d n h, app_run P (app_new kp d n) h a /\ forall o r, In (o, r) h -> ~ lookup_fails o.

Lemma settled_inv P a : settled P a -> appinv P a.
Proof. intros (kp & d & n & h & R & NL). eapply run_appinv; [exact R|exact NL|apply appinv_new]. Qed.

(** * C31 *)

(** As long as host names are resolved, engine and application have the same peers, and adding
    one succeeds in both, at the same place, or changes nothing. *)
Theorem C31_aligned_partial : forall P a, settled P a ->
  (forall n, engine_peers (a_site a) = Some n -> n = length (a_peers a)) /\
  forall pp f b host a' r, host <> Some None -> app_add_peer P pp f b host a = (a', r) ->
    r <> Panic /\ (forall e, r = Err e -> a' = a) /\
    (forall n, r = Ok n -> n = length (a_peers a) /\ engine_peers (a_site a) = Some n /\
       engine_peers (a_site a') = Some (S n) /\ length (a_peers a') = S n).
Proof.
  intros P a S. apply settled_inv in S. split; [apply (ai_count P a S)|].
  intros pp f b host a' r NH E. destruct (add_spec P pp f b host a a' r S E) as (K & _).
  split; [intros ->; exact K|]. split.
  - intros e ->. destruct e; try exact K. now destruct K as (-> & _).
  - intros n ->. destruct K as (A & B & C & D & _). auto.
Qed.
Print Assumptions C31_aligned_partial.

(** A host name that is not resolved leaves the engine with one peer more than the application,
    and from then on no peer can be added: a peer that is new makes the server panic. *)
Theorem C31_unresolved_refuted : forall P a pp f b a1, settled P a ->
  app_add_peer P pp f b (Some None) a = (a1, Err ALookup) ->
  engine_peers (a_site a1) = Some (S (length (a_peers a1))) /\
  forall pp2 f2 b2 host2 a2 r2, app_add_peer P pp2 f2 b2 host2 a1 = (a2, r2) ->
    r2 = Panic \/ exists e, r2 = Err (AAdd e).
Proof.
  intros P a pp f b a1 Se E. apply settled_inv in Se.
  destruct (add_spec P pp f b _ a a1 _ Se E) as ((_ & _ & En & Ep & R) & _).
  split; [now rewrite Ep|]. intros pp2 f2 b2 host2 a2 r2 E2. unfold app_add_peer in E2.
  pose proof (site_add_spec P pp2 (a_site a1) R) as S2.
  destruct (site_add_peer P pp2 (a_site a1)) as [c [n|e|]]; [| |destruct S2].
  2:{ injection E2 as _ <-. eauto. }
  destruct S2 as (En2 & _). rewrite En2 in En. injection En as ->.
  cbn [set_site a_peers] in E2. rewrite Ep in E2.
  replace (Nat.eqb (S (length (a_peers a))) (length (a_peers a))) with false in E2 by (symmetry; apply Nat.eqb_neq; lia).
  injection E2 as _ <-. now left.
Qed.
Print Assumptions C31_unresolved_refuted.

Definition newA : app := app_new (Some (Demo.skA, Demo.pkA)) d0 1.
Definition hostX : sockaddr := V4 [x0a; x00; x00; x01] 9999.
Example C31_nonvacuous :
  settled Demo.P newA /\
  (exists a1, app_add_peer Demo.P pB (Some 7) None (Some (Some [hostX])) newA = (a1, Ok 0)) /\
  (exists a1, app_add_peer Demo.P pB None None (Some None) newA = (a1, Err ALookup) /\
     snd (app_add_peer Demo.P pC None None None a1) = Panic).
Proof.
  split; [|split].
  - exists (Some (Demo.skA, Demo.pkA)), d0, 1, []. split; [constructor|intros o r []].
  - eexists. vm_compute. reflexivity.
  - eexists. split; vm_compute; reflexivity.
Qed.

(** * C32 *)

Definition failures (runs : list (nat * bool)) : nat := length (filter (fun x => negb (snd x)) runs).

Lemma event_loop_spec runs : forall n, n <= 10 ->
  let (w, r) := event_loop (Z.of_nat n) runs in
  (r = Some false <-> Forall (fun x => snd x = false) (firstn (11 - n) runs) /\ 11 - n <= length runs) /\
  (forall i z, nth_error w i = Some z -> z = (2 ^ Z.of_nat (n + i))%Z) /\ length w <= 10 - n.
Proof.
  induction runs as [|[k b] runs IH]; intros n Hn; cbn [event_loop].
  - split; [|split; [intros [|i] z; discriminate|cbn [length]; lia]]. cbn [length]. split; [discriminate|]. intros [_ H]. lia.
  - destruct b.
    + split; [|split; [intros [|i] z; discriminate|cbn [length]; lia]]. split; [discriminate|]. intros [H _].
      replace (11 - n) with (S (10 - n)) in H by lia. cbn [firstn] in H. inversion H; subst. discriminate.
    + change (0 <? 0)%Z with false. cbv iota beta. change MAX_FAILURES with 10%Z.
      destruct (Z.ltb_spec 0 (10 - (Z.of_nat n + 1 - 1))) as [L|L].
      * replace (Z.of_nat n + 1)%Z with (Z.of_nat (S n)) by lia.
        specialize (IH (S n) ltac:(lia)). destruct (event_loop (Z.of_nat (S n)) runs) as [w r]. destruct IH as (IH1 & IH2 & IH3).
        split; [|split].
        -- rewrite IH1. replace (11 - n) with (S (11 - S n)) by lia. cbn [firstn length].
           split; intros [H1 H2]; (split; [|lia]).
           ++ constructor; [reflexivity|exact H1].
           ++ now inversion H1.
        -- intros [|i] z H; cbn [nth_error] in H.
           ++ assert (z = 2 ^ (Z.of_nat (S n) - 1))%Z as -> by congruence. apply (f_equal (fun e => 2 ^ e)%Z). lia.
           ++ apply IH2 in H. rewrite H. apply (f_equal (fun e => 2 ^ e)%Z). lia.
        -- cbn [length]. lia.
      * assert (n = 10) as -> by lia. split; [|split; [intros [|i] z; discriminate|cbn [length]; lia]].
        split; [intros _|reflexivity]. split; [|cbn [length]; lia]. change (11 - 10) with 1. cbn [firstn]. repeat constructor.
Qed.

(** The loop gives up at the eleventh failure, whatever went well before and in between: the
    failures need not be consecutive.  [runs] lists the runs of the inner loop, each with the
    number of turns it made before it ended. *)
Theorem C32_not_consecutive_refuted : forall turns : list nat, length turns = 11 ->
  snd (event_loop 0 (map (fun n => (n, false)) turns)) = Some false.
Proof.
  intros l L. pose proof (event_loop_spec (map (fun n => (n, false)) l) 0 ltac:(lia)) as K.
  change (Z.of_nat 0) with 0%Z in K. destruct (event_loop 0 _) as [w r]. apply K. split.
  - rewrite firstn_all2 by (rewrite map_length; lia). apply Forall_forall. intros x Hx. apply in_map_iff in Hx.
    destruct Hx as (n & <- & _). reflexivity.
  - now rewrite map_length, L.
Qed.
Print Assumptions C32_not_consecutive_refuted.

(** It never gives up before the eleventh failure; it waits 10 ms, 20 ms, 40 ms, ... between them. *)
Theorem C32_eleven_failures_partial : forall runs w r, event_loop 0 runs = (w, r) ->
  (r = Some false -> 11 <= failures runs) /\
  (failures runs <= 10 -> r <> Some false) /\
  (forall i z, nth_error w i = Some z -> z = (2 ^ Z.of_nat i)%Z) /\ length w <= 10.
Proof.
  intros runs w r E.
  pose proof (event_loop_spec runs 0 ltac:(lia)) as K. change (Z.of_nat 0) with 0%Z in K. rewrite E in K.
  destruct K as (K1 & K2 & K3).
  assert (r = Some false -> 11 <= failures runs) as G.
  { intros H. apply K1 in H. destruct H as [H1 H2]. change (11 - 0) with 11 in *. unfold failures.
    rewrite <- (firstn_skipn 11 runs), filter_app, app_length.
    assert (forall l : list (nat * bool), Forall (fun x => snd x = false) l -> length (filter (fun x => negb (snd x)) l) = length l) as F.
    { induction 1 as [|x l Hx _ IH]; [reflexivity|]. cbn [filter]. rewrite Hx. cbn. now rewrite IH. }
    rewrite (F _ H1), firstn_length. lia. }
  split; [exact G|]. split; [intros L H; apply G in H; lia|]. split; [exact K2|exact K3].
Qed.
Print Assumptions C32_eleven_failures_partial.

Example C32_nonvacuous :
  event_loop 0 [(100, false); (2, false); (7, true)] = ([1%Z; 2%Z], Some true) /\
  snd (event_loop 0 (repeat (1000, false) 11)) = Some false /\
  snd (event_loop 0 (repeat (0, false) 10)) = None.
Proof. split; [|split]; reflexivity. Qed.

(** * Concrete histories *)

Inductive xop :=
| XAdd (pp : peer_params) (outfile broker : option nat) (host : option (list sockaddr))
| XTurn (t : time) (b : byte) (load : bool) (ops : list io_op) (rv : recv) (ok : bool).
Definition mkturn (t : time) (b : byte) (load : bool) (ops : list io_op) (rv : recv) (ok : bool) : turn :=
  {| u_poll := (t, Demo.coin b); u_ops := ops; u_supply := []; u_load := load; u_recv := rv;
     u_call := (t, Demo.coin b); u_tx := Demo.tx; u_random := repeat x55 32; u_sends := fun _ _ => ok;
     u_file := true; u_line := true; u_psk := true |}.
Definition xop_op (o : xop) : app_op :=
  match o with
  | XAdd pp f b h => PAdd pp f b (option_map Some h)
  | XTurn t b load ops rv ok => PTurn (mkturn t b load ops rv ok)
  end.
Definition xvalid (o : xop) (a : app) : bool :=
  match o with XTurn _ _ _ _ (RDatagram _ s _) _ => Nat.ltb s (io_sockets (a_io a)) | _ => true end.
Fixpoint sim (l : list xop) (a : app) : option (list (app_op * app_out) * app) :=
  match l with
  | [] => Some ([], a)
  | o :: l' =>
      if xvalid o a then
        match app_exec Demo.P (xop_op o) a with
        | (a1, r) => if panicked r then None
                     else match sim l' a1 with Some (h, a2) => Some ((xop_op o, r) :: h, a2) | None => None end
        end
      else None
  end.
Lemma mkturn_ok t b load ops rv ok a :
  match rv with RDatagram _ s _ => s < io_sockets (a_io a) | _ => True end -> turn_ok (mkturn t b load ops rv ok) a.
Proof.
  intros H. unfold turn_ok. cbn [mkturn u_poll u_call u_tx u_recv fst snd].
  split; [apply Demo.wf_coin|]. split; [apply Demo.wf_coin|]. split; [|exact H].
  apply Demo.leb_le_c. vm_compute. reflexivity.
Qed.
Lemma sim_run l : forall a h a', sim l a = Some (h, a') ->
  app_run Demo.P a h a' /\ forall o r, In (o, r) h -> ~ lookup_fails o.
Proof.
  induction l as [|o l IH]; intros a h a' E; cbn [sim] in E.
  - injection E as <- <-. split; [constructor|intros o r []].
  - destruct (xvalid o a) eqn:V; [|discriminate]. destruct (app_exec Demo.P (xop_op o) a) as [a1 r] eqn:X.
    destruct (panicked r) eqn:Pn; [discriminate|]. destruct (sim l a1) as [[h1 a2]|] eqn:S; [|discriminate].
    injection E as <- <-. destruct (IH _ _ _ S) as (R & N). split.
    + econstructor; eauto. destruct o as [pp f b hst|t b load ops rv ok]; [exact Logic.I|]. cbn [xop_op app_valid].
      apply mkturn_ok. cbn [xvalid] in V. destruct rv; auto. now apply Nat.ltb_lt.
    + intros o1 r1 [H|H]; [|eauto]. injection H as <- <-. destruct o as [pp f b [hst|]|t b load ops rv ok]; cbn; auto.
Qed.
Lemma sim_settled l a h a' kp d n : a = app_new kp d n -> sim l a = Some (h, a') -> settled Demo.P a'.
Proof. intros -> E. destruct (sim_run l _ h a' E) as (R & N). exists kp, d, n, h. auto. Qed.

Definition newB : app := app_new (Some (Demo.skB, Demo.pkB)) d0 1.
Definition pA : peer_params := {| pp_psk := Demo.psk; pp_pk := Demo.pkA; pp_alg := Shake; pp_ds := ExtensionWireguardPsk |}.
Definition hostY : sockaddr := V4 [x0a; x00; x00; x02] 9998.
Definition outs (x : option (list (app_op * app_out) * app)) : list (list effect * res app_err bool) :=
  match x with
  | Some (h, _) => flat_map (fun p => match snd p with Turned _ t r => [(t, r)] | _ => [] end) h
  | None => []
  end.
Definition run1 := sim [XAdd pB (Some 7) None (Some [hostX]);
  XTurn (secs 1) xaa false [] RNothing true;
  XTurn (secs 1 + 100000) xcc false [] (RDatagram Demo.m2 0 hostX) false;
  XTurn (secs 1 + 200000) xee false [] (RDatagram Demo.m4 0 hostX) true] newA.
Definition run2 := sim [XAdd pB (Some 7) None (Some [hostX]);
  XTurn (secs 1) xaa false [] RNothing true;
  XTurn (secs 1 + 100000) xcc false [] (RDatagram Demo.m2 0 hostX) true;
  XTurn (secs 1 + 200000) xee false [] (RDatagram Demo.m4 0 hostX) true] newA.
Definition run3 := sim [XAdd pA (Some 8) None None;
  XTurn (secs 1) xab false [] RNothing true;
  XTurn (secs 2) xbb false [] (RDatagram Demo.m1 0 hostY) true;
  XTurn (secs 4) xdd false [] (RDatagram Demo.m3 0 hostY) true] newB.

(** * C55 *)

Definition is_key_effect (f : effect) : Prop := match f with Sent _ _ _ => False | _ => True end.

Lemma no_sent_in_delivery x p pid why k f : In f (delivery x p pid why k) -> is_key_effect f.
Proof.
  unfold delivery. intros H. apply in_app_iff in H. destruct H as [H|H].
  - destruct (ap_outfile x); [|destruct H]. destruct H as [<-|[<-|[]]]; exact Logic.I.
  - destruct (ap_broker x); [|destruct H]. destruct H as [<-|[]]; exact Logic.I.
Qed.

(** The engine call that hands over the datagram received in the turn. *)
Definition handles (u : turn) (rx : bytes) (sock : nat) (from : sockaddr) (c : call) : Prop :=
  u_recv u = RDatagram rx sock from /\
  c_op c = (if u_load u then OLoad rx (u_tx u) (endpoint_bytes (N.of_nat sock) from) else OMsg rx (u_tx u)).

(** Everything a turn can do. *)
Definition reply (u : turn) (sock : nat) (from : sockaddr) (h : msg_result) (t1 : list effect) : Prop :=
  (mr_resp h = None /\ t1 = []) \/
  (exists m, mr_resp h = Some m /\ u_sends u from sock = true /\ t1 = [Sent sock from m]).
Definition prelude (u : turn) (cs0 : calls) : Prop :=
  cs0 = [] \/ exists d, cs0 = [(poll_call u, Ok (RPolled (Sleep d)))].
Inductive digest (P : prims) (u : turn) (a a' : app) : calls -> list effect -> res app_err bool -> Prop :=
| g_skip p x q : nth_error (a_peers a) p = Some x -> ap_endpoint x = None ->
    (q = SendInitiation p \/ q = SendRetransmission p) ->
    a_peers a' = a_peers a -> a_io a' = a_io a ->
    digest P u a a' [(poll_call u, Ok (RPolled q))] [] (Ok false)
| g_fail p x q o e er : nth_error (a_peers a) p = Some x -> ap_endpoint x = Some e ->
    (q = SendInitiation p /\ o = OInitiate p (u_tx u) \/ q = SendRetransmission p /\ o = ORetransmit p (u_tx u)) ->
    a_peers a' = a_peers a -> a_io a' = a_io a ->
    (exists s s1 s', a_site a = Product s /\ exec P (poll_call u) s = (s1, Ok (RPolled q)) /\
       exec P (next_call u o) s1 = (s', Err er)) ->
    digest P u a a' [(poll_call u, Ok (RPolled q)); (next_call u o, Err er)] [] (Err (AEngine er))
| g_send p x q o e e' m t r : nth_error (a_peers a) p = Some x -> ap_endpoint x = Some e ->
    (q = SendInitiation p /\ o = OInitiate p (u_tx u) \/ q = SendRetransmission p /\ o = ORetransmit p (u_tx u)) ->
    ep_send (u_sends u) (io_sockets (a_io a)) m e = (e', t, r) ->
    a_peers a' = upd p (put_endpoint e' x) (a_peers a) -> a_io a' = a_io a ->
    digest P u a a' [(poll_call u, Ok (RPolled q)); (next_call u o, Ok (RSent m))] t (lift r)
| g_delete p x s' t r : nth_error (a_peers a) p = Some x -> a_site a' = Product s' ->
    p < length (s_peers s') -> length (s_peers s') = length (a_peers a) ->
    output_key P u p Stale (u_random u) s' a = (t, r) ->
    a_peers a' = (if match r with Ok _ => true | _ => false end
                  then upd p (set_current (discovery_from_multiple_sources (ap_current x) (ap_initial x)) x) (a_peers a)
                  else a_peers a) ->
    a_io a' = a_io a ->
    digest P u a a' [(poll_call u, Ok (RPolled (DeleteKey p)))] t (lift r)
| g_quiet cs0 r : prelude u cs0 -> a_peers a' = a_peers a -> (r = Panic -> snd (io_ops (u_ops u) (a_io a)) = true) ->
    (forall e, r = Err e -> u_recv u = RFailed) -> (r = Ok true -> u_recv u = RTerminate) ->
    (r <> Panic -> forall rx sock from s', u_recv u = RDatagram rx sock from -> a_site a' <> Product s') ->
    digest P u a a' cs0 [] r
| g_reject rx sock from cs0 c e : prelude u cs0 -> handles u rx sock from c -> a_peers a' = a_peers a ->
    digest P u a a' (cs0 ++ [(c, Err e)]) [] (Ok false)
| g_unsent rx sock from cs0 c h m : prelude u cs0 -> handles u rx sock from c -> a_peers a' = a_peers a ->
    mr_resp h = Some m -> u_sends u from sock = false ->
    digest P u a a' (cs0 ++ [(c, Ok (RHandled h))]) [] (Err ASend)
| g_plain rx sock from cs0 c h t1 : prelude u cs0 -> handles u rx sock from c -> a_peers a' = a_peers a ->
    reply u sock from h t1 -> mr_exchanged h = None ->
    digest P u a a' (cs0 ++ [(c, Ok (RHandled h))]) t1 (Ok false)
| g_exch rx sock from cs0 c h t1 s' p x k t2 r : prelude u cs0 -> handles u rx sock from c ->
    reply u sock from h t1 -> mr_exchanged h = Some p -> a_site a' = Product s' ->
    p < length (s_peers s') -> length (s_peers s') = length (a_peers a') -> nth_error (a_peers a) p = Some x ->
    a_peers a' = upd p (set_current (Some (Bound sock from)) x) (a_peers a) -> key_at P s' p k ->
    output_key P u p Exchanged k s' a' = (t2, r) ->
    digest P u a a' (cs0 ++ [(c, Ok (RHandled h)); (next_call u (OOsk p), Ok (RKey k))]) (t1 ++ t2) (lift r).

Lemma turn_digest P u a a' cs t r : appinv P a -> turn_ok u a -> app_turn P u a = (a', cs, t, r) ->
  digest P u a a' cs t r.
Proof.
  intros I W E. pose proof (turn_view P u a a' cs t r I W E) as V. clear E.
  destruct V as [p q o s s1 a1 cs1 t1 r1 Es Ex Hq Et|p s s1 a1 t1 r1 Es Ex Ed|a0 cs0 r0 H0 Hn Hf Ht Hdg|a0 cs0 s2 rx sock from a1 cs1 t1 r1 H0 Hn Hr Hs2 Ev].
  - destruct (poll_result P s (poll_call u) s1 _ (ai_reach P a I s Es) (conj (proj1 W) Logic.I) eq_refl Ex) as (R1 & N1 & q' & [= <-] & B).
    pose proof (appinv_site P a s s1 I Es R1 N1) as I1.
    assert (p < npeers s) as Hp by (destruct Hq as [(-> & _)|(-> & _)]; exact B).
    assert (length (s_peers s1) = length (a_peers a)) as L1 by (apply (ai_count P _ I1); reflexivity).
    destruct (tx_spec P u p o s1 (set_site (Product s1) a) a1 cs1 t1 r1 R1 L1 eq_refl W) as (x & X & K).
    { unfold npeers in *. congruence. } { destruct Hq as [(_ & ->)|(_ & ->)]; auto. } { exact Et. }
    cbn [set_site a_peers a_io] in X.
    destruct K as [(He & -> & -> & -> & ->)|(e & s' & q' & He & Ex' & -> & R' & L' & Es' & Ei & _ & K)].
    + eapply g_skip; eauto. destruct Hq as [(-> & _)|(-> & _)]; auto.
    + destruct K as [(er & -> & -> & -> & Ep)|(m & e' & -> & F & Ep)].
      * eapply g_fail; eauto 10.
      * eapply g_send; eauto.
  - destruct (poll_result P s (poll_call u) s1 _ (ai_reach P a I s Es) (conj (proj1 W) Logic.I) eq_refl Ex) as (R1 & N1 & q' & [= <-] & Hp).
    pose proof (appinv_site P a s s1 I Es R1 N1) as I1.
    assert (length (s_peers s1) = length (a_peers a)) as L1 by (apply (ai_count P _ I1); reflexivity).
    assert (p < length (s_peers s1)) as Hp1 by (unfold npeers in *; lia).
    unfold delete_key in Ed. destruct (output_key P u p Stale (u_random u) s1 _) as [t2 r2] eqn:O.
    cbn [set_site a_peers] in Ed. destruct (nth_error (a_peers a) p) as [x|] eqn:X.
    2:{ apply nth_error_None in X. lia. }
    assert (output_key P u p Stale (u_random u) s1 a = (t2, r2)) as O' by exact O.
    destruct r2 as [v|e|]; injection Ed as <- <- <-.
    + destruct v. eapply (g_delete P u a _ p x s1 t2 _ X); [reflexivity|exact Hp1|exact L1|exact O'|reflexivity|reflexivity].
    + eapply (g_delete P u a _ p x s1 t2 _ X); [reflexivity|exact Hp1|exact L1|exact O'|reflexivity|reflexivity].
    + eapply (g_delete P u a _ p x s1 t2 _ X); [reflexivity|exact Hp1|exact L1|exact O'|reflexivity|reflexivity].
  - destruct (before_recv P u a a0 cs0 I W H0) as (I0 & Ei & Ep).
    assert (prelude u cs0) as Pr.
    { destruct H0 as [(s & s1 & d & _ & _ & _ & ->)|(_ & _ & ->)]; [right; eauto|now left]. }
    apply g_quiet; [exact Pr|exact Ep| |exact Hf|exact Ht|exact Hdg]. intros ->. destruct (snd (io_ops (u_ops u) (a_io a))); [reflexivity|now elim Hn].
  - destruct (before_recv P u a a0 cs0 I W H0) as (I0 & Ei & Ep).
    assert (prelude u cs0) as Pr.
    { destruct H0 as [(s & s1 & d & _ & _ & _ & ->)|(_ & _ & ->)]; [right; eauto|now left]. }
    pose proof (after_recv_inv P u a0 I0) as I2.
    destruct W as (_ & Wc & Wt & Ws). rewrite Hr in Ws.
    assert (sock < io_sockets (a_io (after_recv P u a0))) as Hs.
    { unfold after_recv. cbn [set_load set_site set_io a_io]. pose proof (ops_sockets (u_ops u) (a_io a0)). rewrite Ei in *. lia. }
    assert (length (s_peers s2) = length (a_peers (after_recv P u a0))) as L2 by (apply (ai_count P _ I2); rewrite Hs2; reflexivity).
    destruct (receive_spec P u rx sock from s2 _ a1 cs1 t1 r1 (ai_reach P _ I2 s2 Hs2) L2 Hs2 Wc Wt Hs Ev)
      as (s' & q & Ex & R' & L' & Es' & Ei' & _ & K).
    set (c := next_call u (msg_op u (a_under_load (after_recv P u a0)) rx sock from)) in *.
    assert (handles u rx sock from c) as Hc.
    { split; [exact Hr|]. reflexivity. }
    clearbody c. assert (a_peers (after_recv P u a0) = a_peers a) as Ep' by exact Ep. rewrite Ep' in *.
    destruct K as [(e & -> & -> & -> & -> & K)|(h & -> & [(m & Hm & Hu & -> & -> & -> & K)|(t2 & Ht & [(He & -> & -> & -> & K)|(p & x & k & t3 & He & Hp & X & Hk & -> & K & O & ->)])])].
    + eapply g_reject; eauto.
    + eapply g_unsent; eauto.
    + change (reply u sock from h t2) in Ht. eapply g_plain; eauto.
    + change (reply u sock from h t2) in Ht. eapply g_exch; eauto. rewrite L', L2, K. symmetry. apply upd_length.
Qed.

Lemma in_prelude u cs0 c q : prelude u cs0 -> In (c, q) cs0 -> exists d, q = Ok (RPolled (Sleep d)).
Proof. intros [->|(d & ->)] H; [destruct H|]. destruct H as [[= <- <-]|[]]. eauto. Qed.

(** Every key that leaves the server in a turn goes to the sinks of one peer; it is the output
    key of the exchange with that peer completed in this turn, or, if the peer's key has
    become stale, the random value drawn for it. *)
Theorem C55_own_sinks : forall P a u a' cs t r, settled P a -> turn_ok u a ->
  app_turn P u a = (a', cs, t, r) ->
  forall f, In f t -> is_key_effect f ->
  exists p x s' sp why k, nth_error (a_peers a) p = Some x /\ a_site a' = Product s' /\
    nth_error (s_peers s') p = Some sp /\ In f (delivery x p (pidt P sp) why k) /\
    ((why = Exchanged /\ key_at P s' p k /\
      exists rx sock from c h, handles u rx sock from c /\ In (c, Ok (RHandled h)) cs /\ mr_exchanged h = Some p) \/
     (why = Stale /\ k = u_random u /\ In (poll_call u, Ok (RPolled (DeleteKey p))) cs)).
Proof.
  intros P a u a' cs t r S W E f Hf Kf. pose proof (turn_digest P u a a' cs t r (settled_inv P a S) W E) as D. clear E.
  assert (forall t1 sock from h, reply u sock from h t1 -> ~ In f t1) as NR.
  { intros t1 sock from h [(_ & ->)|(m & _ & _ & ->)] H; [destruct H|]. destruct H as [<-|[]]. exact Kf. }
  destruct D as [p x q X He Hq Ep Ei|p x q o e er X He Hq Ep Ei Hx|p x q o e e' m t r X He Hq F Ep Ei
    |p x s' t r X Es Hp L O Ep Ei|cs0 r Pr Ep Hr Hfl Hterm Hdg|rx sock from cs0 c e Pr Hc Ep|rx sock from cs0 c h m Pr Hc Ep Hm Hu
    |rx sock from cs0 c h t1 Pr Hc Ep Hy He|rx sock from cs0 c h t1 s' p x k t2 r Pr Hc Hy He Es Hp L X Ep Hk O];
    try (destruct Hf; fail).
  - exfalso. pose proof (ep_send_spec (u_sends u) (io_sockets (a_io a)) m e) as Q. rewrite F in Q.
    destruct Q as (_ & Q & _). destruct (Q f Hf) as (s & b & -> & _). exact Kf.
  - destruct (output_spec P u p Stale (u_random u) s' a t r Hp L O) as (sp & x' & Sp & X' & (rest & Q) & _).
    rewrite X in X'. injection X' as <-. exists p, x, s', sp, Stale, (u_random u).
    repeat (split; [assumption|]). split; [rewrite Q; apply in_app_iff; auto|]. right. repeat split. now left.
  - exfalso. eapply NR; eauto.
  - apply in_app_iff in Hf. destruct Hf as [Hf|Hf]; [exfalso; eapply NR; eauto|].
    destruct (output_spec P u p Exchanged k s' a' t2 r Hp L O) as (sp & x' & Sp & X' & (rest & Q) & _).
    exists p, x, s', sp, Exchanged, k. repeat (split; [assumption|]). split.
    + assert (delivery x p (pidt P sp) Exchanged k = delivery x' p (pidt P sp) Exchanged k) as ->.
      { rewrite Ep, nth_error_upd_eq in X' by (apply nth_error_Some; congruence). injection X' as <-. reflexivity. }
      rewrite Q. apply in_app_iff. auto.
    + left. split; [reflexivity|]. split; [exact Hk|]. exists rx, sock, from, c, h. split; [exact Hc|]. split; [|exact He].
      apply in_app_iff. right. now left.
Qed.
Print Assumptions C55_own_sinks.

(** If the turn ends without error, the key of a completed exchange has been delivered, after
    the reply, and so has a random key for every key that became stale. *)
Theorem C55_delivered_partial : forall P a u a' cs t b, settled P a -> turn_ok u a ->
  app_turn P u a = (a', cs, t, Ok b) ->
  (forall c h p, In (c, Ok (RHandled h)) cs -> mr_exchanged h = Some p ->
     exists x s' sp k t1, nth_error (a_peers a) p = Some x /\ a_site a' = Product s' /\
       nth_error (s_peers s') p = Some sp /\ key_at P s' p k /\
       t = t1 ++ delivery x p (pidt P sp) Exchanged k /\
       forall m, mr_resp h = Some m -> exists sock from, t1 = [Sent sock from m]) /\
  (forall c p, In (c, Ok (RPolled (DeleteKey p))) cs ->
     exists x s' sp, nth_error (a_peers a) p = Some x /\ a_site a' = Product s' /\
       nth_error (s_peers s') p = Some sp /\ t = delivery x p (pidt P sp) Stale (u_random u)).
Proof.
  intros P a u a' cs t b S W E. pose proof (turn_digest P u a a' cs t _ (settled_inv P a S) W E) as D. clear E.
  remember (Ok b) as r eqn:Er.
  destruct D as [p x q X He Hq Ep Ei|p x q o e er X He Hq Ep Ei Hx|p x q o e e' m t r X He Hq F Ep Ei
    |p x s' t r X Es Hp L O Ep Ei|cs0 r Pr Ep Hr Hfl Hterm Hdg|rx sock from cs0 c e Pr Hc Ep|rx sock from cs0 c h m Pr Hc Ep Hm Hu
    |rx sock from cs0 c h t1 Pr Hc Ep Hy He|rx sock from cs0 c h t1 s' p x k t2 r Pr Hc Hy He Es Hp L X Ep Hk O];
    try discriminate.
  - split; intros; (destruct H as [H|[]]; inversion H; subst; destruct Hq; discriminate).
  - split; intros; (destruct H as [H|[H|[]]]; inversion H; subst; destruct Hq as [[? ?]|[? ?]]; discriminate).
  - split; [intros c h p0 [H|[]]; discriminate|]. intros c p0 [H|[]]. injection H as _ <-.
    destruct (output_spec P u p Stale (u_random u) s' a t r Hp L O) as (sp & x' & Sp & X' & _ & Q & _).
    rewrite X in X'. injection X' as <-. exists x, s', sp. repeat (split; [assumption|]). apply Q.
    destruct r as [[]| |]; try discriminate. reflexivity.
  - split; intros; apply (in_prelude _ _ _ _ Pr) in H; destruct H as (d & H); discriminate.
  - split; intros; apply in_app_iff in H; (destruct H as [H|[H|[]]]; [apply (in_prelude _ _ _ _ Pr) in H; destruct H as (d & H)|]; discriminate).
  - split.
    + intros c0 h0 p0 H. apply in_app_iff in H. destruct H as [H|[H|[]]].
      * apply (in_prelude _ _ _ _ Pr) in H. destruct H as (d & H). discriminate.
      * injection H as _ <-. congruence.
    + intros c0 p0 H. apply in_app_iff in H. destruct H as [H|[H|[]]]; [|discriminate].
      apply (in_prelude _ _ _ _ Pr) in H. destruct H as (d & H). discriminate.
  - split.
    + intros c0 h0 p0 H He0. apply in_app_iff in H. destruct H as [H|[H|[H|[]]]].
      * apply (in_prelude _ _ _ _ Pr) in H. destruct H as (d & H). discriminate.
      * injection H as _ <-. rewrite He in He0. injection He0 as <-.
        destruct (output_spec P u p Exchanged k s' a' t2 r Hp L O) as (sp & x' & Sp & X' & _ & Q & _).
        exists x, s', sp, k, t1. repeat (split; [assumption|]). split.
        -- assert (r = Ok tt) as Hr by (destruct r as [[]| |]; try discriminate; reflexivity). rewrite (Q Hr).
           rewrite Ep, nth_error_upd_eq in X' by (apply nth_error_Some; congruence). injection X' as <-. reflexivity.
        -- intros m Hm. destruct Hy as [(H & _)|(m' & H & _ & ->)]; [congruence|]. rewrite Hm in H. injection H as <-. eauto.
      * discriminate.
    + intros c0 p0 H. apply in_app_iff in H. destruct H as [H|[H|[H|[]]]]; try discriminate.
      apply (in_prelude _ _ _ _ Pr) in H. destruct H as (d & H). discriminate.
Qed.
Print Assumptions C55_delivered_partial.

(** If the reply to the message that completes an exchange cannot be sent, the turn ends with
    an error and the key is not delivered, although the engine has it. *)
Theorem C55_unsent_reply_refuted : forall P a u a' cs t r c h p m, settled P a -> turn_ok u a ->
  app_turn P u a = (a', cs, t, r) -> In (c, Ok (RHandled h)) cs -> mr_exchanged h = Some p -> mr_resp h = Some m ->
  (forall b s, u_sends u b s = false) -> t = [] /\ r = Err ASend.
Proof.
  intros P a u a' cs t r c h p m S W E H He Hm Hu. pose proof (turn_digest P u a a' cs t _ (settled_inv P a S) W E) as D. clear E.
  destruct D as [p0 x q X He0 Hq Ep Ei|p0 x q o e er X He0 Hq Ep Ei Hx|p0 x q o e e' m0 t r X He0 Hq F Ep Ei
    |p0 x s' t r X Es Hp L O Ep Ei|cs0 r Pr Ep Hr Hfl Hterm Hdg|rx sock from cs0 c0 e Pr Hc Ep|rx sock from cs0 c0 h0 m0 Pr Hc Ep Hm0 Hu0
    |rx sock from cs0 c0 h0 t1 Pr Hc Ep Hy He0|rx sock from cs0 c0 h0 t1 s' p0 x k t2 r Pr Hc Hy He0 Es Hp L X Ep Hk O].
  - destruct H as [H|[]]. inversion H.
  - destruct H as [H|[H|[]]]; inversion H.
  - destruct H as [H|[H|[]]]; inversion H.
  - destruct H as [H|[]]. inversion H.
  - apply (in_prelude _ _ _ _ Pr) in H. destruct H as (d & H). discriminate.
  - apply in_app_iff in H. destruct H as [H|[H|[]]]; [|discriminate]. apply (in_prelude _ _ _ _ Pr) in H. destruct H as (d & H). discriminate.
  - auto.
  - apply in_app_iff in H. destruct H as [H|[H|[]]]; [apply (in_prelude _ _ _ _ Pr) in H; destruct H as (d & H); discriminate|].
    injection H as _ <-. congruence.
  - apply in_app_iff in H. destruct H as [H|[H|[H|[]]]]; [apply (in_prelude _ _ _ _ Pr) in H; destruct H as (d & H); discriminate| |discriminate].
    injection H as _ <-. destruct Hy as [(Hy & _)|(m1 & _ & Hy & _)]; [congruence|]. rewrite Hu in Hy. discriminate.
Qed.
Print Assumptions C55_unsent_reply_refuted.

Definition end_of (x : option (list (app_op * app_out) * app)) : app := match x with Some (_, a) => a | None => newA end.
Definition engine_of (a : app) : srv := match a_site a with Product s => s | _ => Demo.A0 end.
Definition end1 := Eval vm_compute in end_of run1.
Definition eng1 := Eval vm_compute in engine_of end1.
Lemma end1_eq : option_map snd run1 = Some end1.
Proof. vm_compute. reflexivity. Qed.
Lemma end_settled l kp d n x a : x = sim l (app_new kp d n) -> option_map snd x = Some a -> settled Demo.P a.
Proof. intros -> E. destruct (sim l _) as [[h b]|] eqn:S; [|discriminate]. injection E as <-. eapply sim_settled; eauto. Qed.
Lemma end1_settled : settled Demo.P end1.
Proof. eapply end_settled; [|exact end1_eq]. reflexivity. Qed.

(** The peer's output key, computed from its session. *)
Definition osk_at (P : prims) (s : srv) (p : nat) : option bytes :=
  match nth_error (s_peers s) p with
  | Some x => match p_session x with
              | Some v => Some (hmix P (se_alg v) (se_ck v) (ds_compress P (p_alg x) (p_ds x)))
              | None => None
              end
  | None => None
  end.
Lemma osk_at_key P s p k : osk_at P s p = Some k -> key_at P s p k.
Proof.
  unfold osk_at. destruct (nth_error (s_peers s) p) as [x|] eqn:X; [|discriminate].
  destruct (p_session x) as [v|] eqn:V; [|discriminate]. intros H. injection H as <-. now apply osk_of.
Qed.

(** The loss is permanent for this exchange: the initiator sends an InitHello, gets the
    RespHello, cannot send its InitConf, and, when the responder acknowledges the exchange,
    both engines have the same key but the initiator has not delivered it. *)
Theorem C55_lost_key_refuted : exists s k,
  settled Demo.P end1 /\ a_site end1 = Product s /\ key_at Demo.P s 0 k /\ key_at Demo.P Demo.B3 0 k /\
  option_map ap_outfile (nth_error (a_peers end1) 0) = Some (Some 7) /\
  option_map snd run1 = Some end1 /\
  map (fun x => (filter (fun f => match f with Sent _ _ _ => false | _ => true end) (fst x), snd x)) (outs run1) =
    [([], Ok false); ([], Err ASend); ([], Ok false)].
Proof.
  destruct (osk_at Demo.P eng1 0) as [k|] eqn:K; [|exfalso; revert K; vm_compute; discriminate].
  exists eng1, k. split; [exact end1_settled|]. split; [vm_compute; reflexivity|]. split; [now apply osk_at_key|].
  split; [apply osk_at_key; rewrite <- K; vm_compute; reflexivity|]. split; [reflexivity|]. split; [exact end1_eq|].
  vm_compute. reflexivity.
Qed.
Print Assumptions C55_lost_key_refuted.

Definition run4 := sim [XAdd pB (Some 7) None (Some [hostX]);
  XTurn (secs 1) xaa false [] RNothing true;
  XTurn (secs 1 + 100000) xcc false [] (RDatagram Demo.m2 0 hostX) true;
  XTurn (secs 1 + 200000) xee false [] (RDatagram Demo.m4 0 hostX) true;
  XTurn (secs 400) xef false [] RNothing true] newA.
Definition is_sent (f : effect) : bool := match f with Sent _ _ _ => true | _ => false end.
(** The initiator delivers the key of a completed exchange, and a random one when it expires. *)
Example C55_nonvacuous : exists k pid,
  option_map (fun _ => tt) run4 = Some tt /\
  map (fun x => (filter (fun f => negb (is_sent f)) (fst x), snd x)) (outs run4) =
    [([], Ok false); ([KeyFile 7 k; KeyLine 7 pid Exchanged], Ok false); ([], Ok false);
     ([KeyFile 7 (repeat x55 32); KeyLine 7 pid Stale], Ok false)] /\
  osk_at Demo.P Demo.B3 0 = Some k.
Proof. do 2 eexists. split; [|split]; vm_compute; reflexivity. Qed.

(** * C56 *)

Lemma same_put e e' x : same_hosts (Some e) (Some e') -> ap_endpoint x = Some e ->
  same_hosts (ap_current x) (ap_current (put_endpoint e' x)) /\ same_hosts (ap_initial x) (ap_initial (put_endpoint e' x)) /\
  ap_outfile (put_endpoint e' x) = ap_outfile x /\ ap_broker (put_endpoint e' x) = ap_broker x.
Proof.
  intros S E. rewrite put_current, put_initial. unfold put_endpoint, ap_endpoint in *.
  destruct (ap_current x) as [c|]; [injection E as ->|rewrite E]; cbn [ap_outfile ap_broker set_current set_initial]; auto using same_hosts_refl.
Qed.

(** The outputs of a peer never change; the address it is sent to changes only when an exchange
    with this peer completes, to the source of the datagram that completes it, or when its
    key becomes stale, to the last address followed by the configured ones. *)
Theorem C56_endpoint_changes : forall P a u a' cs t r, settled P a -> turn_ok u a ->
  app_turn P u a = (a', cs, t, r) ->
  length (a_peers a') = length (a_peers a) /\
  forall p x, nth_error (a_peers a) p = Some x ->
  exists x', nth_error (a_peers a') p = Some x' /\ ap_outfile x' = ap_outfile x /\ ap_broker x' = ap_broker x /\
    same_hosts (ap_initial x) (ap_initial x') /\
    (same_hosts (ap_current x) (ap_current x') \/
     (exists rx sock from c h, handles u rx sock from c /\ In (c, Ok (RHandled h)) cs /\ mr_exchanged h = Some p /\
        ap_current x' = Some (Bound sock from)) \/
     (In (poll_call u, Ok (RPolled (DeleteKey p))) cs /\
        ap_current x' = discovery_from_multiple_sources (ap_current x) (ap_initial x))).
Proof.
  intros P a u a' cs t r S W E. pose proof (turn_digest P u a a' cs t _ (settled_inv P a S) W E) as D. clear E.
  assert (forall cs : calls, a_peers a' = a_peers a ->
    length (a_peers a') = length (a_peers a) /\
    forall p x, nth_error (a_peers a) p = Some x ->
    exists x', nth_error (a_peers a') p = Some x' /\ ap_outfile x' = ap_outfile x /\ ap_broker x' = ap_broker x /\
    same_hosts (ap_initial x) (ap_initial x') /\
    (same_hosts (ap_current x) (ap_current x') \/
     (exists rx sock from c h, handles u rx sock from c /\ In (c, Ok (RHandled h)) cs /\ mr_exchanged h = Some p /\
        ap_current x' = Some (Bound sock from)) \/
     (In (poll_call u, Ok (RPolled (DeleteKey p))) cs /\
        ap_current x' = discovery_from_multiple_sources (ap_current x) (ap_initial x)))) as Same.
  { intros cs0 ->. split; [reflexivity|]. intros p x X. exists x. auto 10 using same_hosts_refl. }
  destruct D as [p x q X He Hq Ep Ei|p x q o e er X He Hq Ep Ei Hx|p x q o e e' m t r X He Hq F Ep Ei
    |p x s' t r X Es Hp L O Ep Ei|cs0 r Pr Ep Hr Hfl Hterm Hdg|rx sock from cs0 c e Pr Hc Ep|rx sock from cs0 c h m Pr Hc Ep Hm Hu
    |rx sock from cs0 c h t1 Pr Hc Ep Hy He|rx sock from cs0 c h t1 s' p x k t2 r Pr Hc Hy He Es Hp L X Ep Hk O];
    try (apply Same; assumption).
  - rewrite Ep. split; [apply upd_length|]. intros p0 x0 X0. rewrite nth_error_upd.
    destruct (Nat.eqb_spec p p0) as [->|N]; [|exists x0; rewrite X0; auto 10 using same_hosts_refl].
    rewrite X in X0. injection X0 as <-. rewrite X. eexists. split; [reflexivity|].
    pose proof (ep_send_spec (u_sends u) (io_sockets (a_io a)) m e) as Q. rewrite F in Q. destruct Q as (Q & _).
    destruct (same_put e e' x Q He) as (A & B & C & D). auto.
  - destruct (match r with Ok _ => true | _ => false end); [|apply Same; assumption].
    rewrite Ep. split; [apply upd_length|]. intros p0 x0 X0. rewrite nth_error_upd.
    destruct (Nat.eqb_spec p p0) as [->|N]; [|exists x0; rewrite X0; auto 10 using same_hosts_refl].
    rewrite X in X0. injection X0 as <-. rewrite X. eexists. split; [reflexivity|].
    cbn [set_current ap_outfile ap_broker ap_initial ap_current]. repeat (split; [auto using same_hosts_refl|]).
    right. right. split; [now left|reflexivity].
  - rewrite Ep. split; [apply upd_length|]. intros p0 x0 X0. rewrite nth_error_upd.
    destruct (Nat.eqb_spec p p0) as [->|N]; [|exists x0; rewrite X0; auto 10 using same_hosts_refl].
    rewrite X in X0. injection X0 as <-. rewrite X. eexists. split; [reflexivity|].
    cbn [set_current ap_outfile ap_broker ap_initial ap_current]. repeat (split; [auto using same_hosts_refl|]).
    right. left. exists rx, sock, from, c, h. repeat (split; [auto|]); [apply in_app_iff; right; now left|]. auto.
Qed.
Print Assumptions C56_endpoint_changes.

(** A packet is the reply to the datagram received in the turn, sent to its source through the
    socket it came in by, or an initiation or retransmission for a peer, sent to one of the
    addresses the peer is known under. *)
Theorem C56_sent_packets : forall P a u a' cs t r sock to m, settled P a -> turn_ok u a ->
  app_turn P u a = (a', cs, t, r) -> In (Sent sock to m) t ->
  (exists rx c h, handles u rx sock to c /\ In (c, Ok (RHandled h)) cs /\ mr_resp h = Some m) \/
  (exists p x e c, nth_error (a_peers a) p = Some x /\ ap_endpoint x = Some e /\ In to (addresses e) /\
     (c_op c = OInitiate p (u_tx u) \/ c_op c = ORetransmit p (u_tx u)) /\ In (c, Ok (RSent m)) cs).
Proof.
  intros P a u a' cs t r sock to m S W E Hf. pose proof (turn_digest P u a a' cs t _ (settled_inv P a S) W E) as D. clear E.
  destruct D as [p x q X He Hq Ep Ei|p x q o e er X He Hq Ep Ei Hx|p x q o e e' m' t r X He Hq F Ep Ei
    |p x s' t r X Es Hp L O Ep Ei|cs0 r Pr Ep Hr Hfl Hterm Hdg|rx sock' from cs0 c e Pr Hc Ep|rx sock' from cs0 c h m' Pr Hc Ep Hm Hu
    |rx sock' from cs0 c h t1 Pr Hc Ep Hy He|rx sock' from cs0 c h t1 s' p x k t2 r Pr Hc Hy He Es Hp L X Ep Hk O];
    try (destruct Hf; fail).
  - right. pose proof (ep_send_spec (u_sends u) (io_sockets (a_io a)) m' e) as Q. rewrite F in Q.
    destruct Q as (_ & Q & _). destruct (Q _ Hf) as (s & b & [= -> -> ->] & Hb & _).
    exists p, x, e, (next_call u o). repeat (split; [assumption|]). split; [|right; now left].
    destruct Hq as [(_ & ->)|(_ & ->)]; auto.
  - exfalso. destruct (output_spec P u p Stale (u_random u) s' a t r Hp L O) as (sp & x' & Sp & X' & (rest & Q) & _).
    apply (no_sent_in_delivery x' p (pidt P sp) Stale (u_random u) (Sent sock to m)). rewrite Q. apply in_app_iff. auto.
  - left. destruct Hy as [(_ & ->)|(m1 & Hm & _ & ->)]; [destruct Hf|]. destruct Hf as [[= <- <- <-]|[]].
    exists rx, c, h. split; [exact Hc|]. split; [|exact Hm]. apply in_app_iff. right. now left.
  - left. apply in_app_iff in Hf. destruct Hf as [Hf|Hf].
    + destruct Hy as [(_ & ->)|(m1 & Hm & _ & ->)]; [destruct Hf|]. destruct Hf as [[= <- <- <-]|[]].
      exists rx, c, h. split; [exact Hc|]. split; [|exact Hm]. apply in_app_iff. right. now left.
    + exfalso. destruct (output_spec P u p Exchanged k s' a' t2 r Hp L O) as (sp & x' & Sp & X' & (rest & Q) & _).
      apply (no_sent_in_delivery x' p (pidt P sp) Exchanged k (Sent sock to m)). rewrite Q. apply in_app_iff. auto.
Qed.
Print Assumptions C56_sent_packets.

Definition end2 := Eval vm_compute in end_of run2.
Definition end4 := Eval vm_compute in end_of run4.
Definition end3 := Eval vm_compute in end_of run3.
Definition eng3 := Eval vm_compute in engine_of end3.
Lemma end3_eq : option_map snd run3 = Some end3.
Proof. vm_compute. reflexivity. Qed.
Lemma end3_settled : settled Demo.P end3.
Proof. eapply end_settled; [|exact end3_eq]. reflexivity. Qed.

(** The responder learns the initiator's address, the initiator binds the configured one, and
    goes back to searching when the key is stale. *)
Example C56_nonvacuous :
  map ap_current (a_peers end3) = [Some (Bound 0 hostY)] /\ map ap_initial (a_peers end3) = [None] /\
  option_map snd run2 = Some end2 /\ map ap_current (a_peers end2) = [Some (Bound 0 hostX)] /\
  option_map snd run4 = Some end4 /\ map ap_current (a_peers end4) = [Some (Discovery (0, 0) [hostX])].
Proof. repeat (split; [vm_compute; reflexivity|]). vm_compute. reflexivity. Qed.
