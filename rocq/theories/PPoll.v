(** C10-C13: polling. *)
From Verif Require Import Base ConstTime Prims HashDomains Wire Server Protocol Wp Inv Rules Calls PollRules System Trans Spec Demo.
Local Open Scope Z_scope.

(** * Vocabulary *)

(** A deadline is reached, up to the event grace of 2.5 ms. *)
Definition reached (now t : time) : Prop := t < now + 2500.

Definition session_expired (now : time) (x : peer) : Prop :=
  exists u, p_session x = Some u /\ reached now (se_created u + secs 180).
Definition handshake_live (now : time) (x : peer) : Prop :=
  exists h, p_handshake x = Some h /\ ~ reached now (hs_created h + secs 180).
Definition rekey_age (r : role) : time :=
  match r with Initiator => secs 130 | Responder => secs 120 end.
Definition initiation_due (now : time) (x : peer) : Prop :=
  p_init_req x = false /\
  (forall u, p_session x = Some u -> reached now (se_created u + rekey_age (se_role u))) /\
  ~ handshake_live now x.
Definition retransmission_due (now : time) (x : peer) : Prop :=
  exists h, p_handshake x = Some h /\ ~ reached now (hs_created h + secs 180) /\
    reached now (hs_retry_at h).
Definition event_due (now : time) (x : peer) : Prop :=
  session_expired now x \/ initiation_due now x \/ retransmission_due now x.

(** * The model's tests *)

Lemma due_reached now t : due now t = true <-> reached now t.
Proof. unfold due, has_happened, reached. rewrite Z.ltb_lt. change EVENT_GRACE with 2500. lia. Qed.
Lemma due_not now t : due now t = false <-> ~ reached now t.
Proof. rewrite <- due_reached. destruct (due now t); intuition congruence. Qed.

Lemma ses_dead_spec now x : ses_dead now x = true <-> session_expired now x.
Proof.
  unfold ses_dead, session_expired, due_opt, ses_die_at. destruct (p_session x) as [u|]; cbn [option_map].
  - rewrite due_reached. split; [eauto|]. intros (v & [= <-] & H). exact H.
  - split; [discriminate|]. intros (v & [=] & _).
Qed.

Lemma hs_dead_spec now x : hs_dead now x = false <->
  (forall h, p_handshake x = Some h -> ~ reached now (hs_created h + secs 180)).
Proof.
  unfold hs_dead, due_opt, hs_die_at. destruct (p_handshake x) as [h|]; cbn [option_map].
  - rewrite due_not. split; [intros H g [= <-]; exact H|]. intros H. now apply H.
  - split; auto. intros _ h [=].
Qed.
Lemma hs_dead_true now x h : hs_dead now x = true -> p_handshake x = Some h ->
  reached now (hs_created h + secs 180).
Proof.
  unfold hs_dead, due_opt, hs_die_at. intros D E. rewrite E in D. cbn [option_map] in D.
  now apply due_reached.
Qed.

Lemma wait_and_max a b : wait_and a b = Z.max a b.
Proof. unfold wait_and. destruct (Z.gtb_spec a b); lia. Qed.

Lemma drop_hs_session now x : p_session (drop_hs now x) = p_session x.
Proof. unfold drop_hs. now destruct (hs_dead now x). Qed.
Lemma drop_hs_req now x : p_init_req (drop_hs now x) = p_init_req x.
Proof. unfold drop_hs. now destruct (hs_dead now x). Qed.
Lemma drop_hs_known now x : p_known (drop_hs now x) = p_known x.
Proof. unfold drop_hs. now destruct (hs_dead now x). Qed.
Lemma drop_hs_some now x h : p_handshake (drop_hs now x) = Some h <->
  p_handshake x = Some h /\ ~ reached now (hs_created h + secs 180).
Proof.
  unfold drop_hs. destruct (hs_dead now x) eqn:D.
  - split; [discriminate|]. intros [E H]. destruct H. eapply hs_dead_true; eauto.
  - split; [|tauto]. intros E. split; auto. now apply (proj1 (hs_dead_spec now x) D).
Qed.
Lemma drop_hs_none now x : p_handshake (drop_hs now x) = None <-> ~ handshake_live now x.
Proof.
  unfold handshake_live. split.
  - intros E (h & H). apply drop_hs_some in H. congruence.
  - intros N. destruct (p_handshake (drop_hs now x)) as [h|] eqn:E; auto.
    destruct N. exists h. now apply drop_hs_some.
Qed.

Lemma init_due_spec now x : init_due now (drop_hs now x) = true <-> initiation_due now x.
Proof.
  unfold init_due, init_wait, has_happened, initiation_due. rewrite !wait_and_max, Z.ltb_lt.
  rewrite drop_hs_session, drop_hs_req. change EVENT_GRACE with 2500.
  assert (or_immediate (left now (ses_retire_at (p_session x))) < 2500 <->
    (forall u, p_session x = Some u -> reached now (se_created u + rekey_age (se_role u)))) as E1.
  { destruct (p_session x) as [u|]; cbn [ses_retire_at option_map left or_immediate].
    - unfold reached, REKEY_AFTER_TIME_INITIATOR, REKEY_AFTER_TIME_RESPONDER.
      unfold rekey_age in *.
      split; [intros H v [= <-]; destruct (se_role u); lia|].
      intros H. specialize (H u eq_refl). destruct (se_role u); lia.
    - split; [intros _ u [=]|lia]. }
  assert (or_immediate (left now (hs_retire_at (p_handshake (drop_hs now x)))) < 2500 <->
    ~ handshake_live now x) as E2.
  { rewrite <- drop_hs_none. destruct (p_handshake (drop_hs now x)) as [h|] eqn:E;
      cbn [hs_retire_at hs_die_at option_map left or_immediate]; [|split; [auto|lia]].
    apply drop_hs_some in E. destruct E as [_ E]. unfold hs_retire_at, hs_die_at. cbn [option_map].
    unfold left. cbn [option_map or_immediate].
    unfold reached in E. change REJECT_AFTER_TIME with (secs 180). split; [lia|discriminate]. }
  rewrite <- E1, <- E2. destruct (p_init_req x); cbn [immediate_unless].
  - change UNENDING with 28800000000. split; [lia|intros [[=] _]].
  - lia.
Qed.

Lemma retry_due_spec now x : retry_due now (drop_hs now x) = true <-> retransmission_due now x.
Proof.
  unfold retry_due, retransmission_due, due_opt.
  destruct (p_handshake (drop_hs now x)) as [h|] eqn:E; cbn [option_map].
  - apply drop_hs_some in E. rewrite due_reached. destruct E as [E L]. split; [eauto|].
    intros (g & Hg & _ & H). congruence.
  - split; [discriminate|]. intros (h & A & B & _). apply drop_hs_none in E.
    destruct E. exists h. auto.
Qed.

Lemma peer_event_none now x : peer_event now x = EvNone <-> ~ event_due now x.
Proof.
  unfold peer_event, event_due. rewrite <- ses_dead_spec, <- init_due_spec, <- retry_due_spec.
  assert (ses_dead now (drop_hs now x) = ses_dead now x) as -> by
    (unfold ses_dead; now rewrite drop_hs_session).
  destruct (ses_dead now x), (init_due _ _), (retry_due _ _); cbn; intuition congruence.
Qed.

(** * What a scan of the peers does *)

Section Scan.
Context (P : prims).
Local Open Scope nat_scope.

Definition settle (now : time) (x : peer) : peer := drop_known now (drop_hs now x).

Lemma peerpoll_other now c p x s s' r q : pe s p = Some x -> peerpoll now c p x s s' r ->
  q <> p -> pe s' q = pe s q.
Proof.
  intros X PP N. destruct PP as [s' Ev R|s' Ev R|s' Ev R|s' Ev R _];
    rewrite (sr_pe _ _ _ _ _ R); destruct (Nat.eqb_spec p q); congruence.
Qed.
Lemma peerpoll_rest now c p x s s' r : peerpoll now c p x s s' r -> rest s' = rest s.
Proof. intros PP. destruct PP as [s' Ev R|s' Ev R|s' Ev R|s' Ev R _]; apply R. Qed.
Lemma peerpoll_sleep now c p x s s' u : peerpoll now c p x s s' (Sleep u) ->
  peer_event now x = EvNone /\ u = peer_wait now x /\ pe s' p = Some (settle now x).
Proof.
  intros PP. inversion PP; subst. split; auto. split; auto. eapply st_rel_self; eauto.
Qed.
Lemma peerpoll_result now c p x s s' r : peerpoll now c p x s s' r -> saturated r = true ->
  result_peer r = Some p /\ peer_event now x <> EvNone.
Proof. intros PP. destruct PP; cbn; intros; split; congruence. Qed.

Lemma pscan_sleep now c l s t s2 u :
  pscan P now c l s t s2 (Sleep u) -> NoDup l ->
  rest s2 = rest s /\ (u <= t)%Z /\
  (forall q, ~ In q l -> pe s2 q = pe s q) /\
  (forall q, In q l -> exists x, pe s q = Some x /\ peer_event now x = EvNone /\
      (u <= peer_wait now x)%Z /\ pe s2 q = Some (settle now x)).
Proof.
  intros S. remember (Sleep u) as r eqn:Er. revert u Er.
  induction S as [s t|p x l s t s1 v s2 r I X PP G S IH|p x l s t s1 r I X PP G Sat]; intros u Er ND.
  - injection Er as <-. repeat split; auto; [lia|]. intros q [].
  - inversion ND as [|? ? NI ND']; subst.
    destruct (IH u eq_refl ND') as (A & B & C & D).
    destruct (peerpoll_sleep _ _ _ _ _ _ _ PP) as (E1 & -> & E3).
    split; [rewrite A; eapply peerpoll_rest; eauto|]. split; [lia|]. split.
    + intros q H. rewrite C by (intros F; apply H; now right).
      eapply peerpoll_other; eauto. intros ->. apply H. now left.
    + intros q [<-|H].
      * exists x. split; auto. split; auto. split; [lia|]. now rewrite C.
      * destruct (D q H) as (y & Y & F). exists y. split; auto.
        rewrite <- Y. symmetry. eapply peerpoll_other; eauto. congruence.
  - subst. discriminate.
Qed.

Lemma pscan_event now c l s t s2 r :
  pscan P now c l s t s2 r -> NoDup l -> saturated r = true ->
  exists l1 p l2 x s1, l = l1 ++ p :: l2 /\ rest s2 = rest s /\ result_peer r = Some p /\
    pe s p = Some x /\ pe s1 p = Some x /\ peerpoll now c p x s1 s2 r /\
    (forall q, In q l1 -> exists y, pe s q = Some y /\ peer_event now y = EvNone /\
        pe s2 q = Some (settle now y)) /\
    (forall q, ~ In q l1 -> q <> p -> pe s2 q = pe s q).
Proof.
  intros S. induction S as [s t|p x l s t s1 v s2 r I X PP G S IH|p x l s t s1 r I X PP G Sat];
    intros ND Hs; [discriminate| |].
  - inversion ND as [|? ? NI ND']; subst.
    destruct (IH ND' Hs) as (l1 & p' & l2 & x' & s1' & -> & A & B & X' & X1 & PP' & D & E).
    destruct (peerpoll_sleep _ _ _ _ _ _ _ PP) as (E1 & -> & E3).
    assert (p' <> p) as Np by (intros ->; apply NI, in_app_iff; right; now left).
    exists (p :: l1), p', l2, x', s1'. split; [reflexivity|].
    split; [rewrite A; eapply peerpoll_rest; eauto|]. split; auto.
    split; [rewrite <- X'; symmetry; eapply peerpoll_other; eauto|]. split; auto. split; auto. split.
    + intros q [<-|H].
      * exists x. split; auto. split; auto. rewrite E; auto. intros F. apply NI, in_app_iff. now left.
      * destruct (D q H) as (y & Y & F). exists y. split; auto.
        rewrite <- Y. symmetry. eapply peerpoll_other; eauto. intros ->.
        apply NI, in_app_iff. now left.
    + intros q H Nq. rewrite E by (auto; intros F; apply H; now right).
      eapply peerpoll_other; eauto. intros ->. apply H. now left.
  - exists [], p, l, x, s. split; [reflexivity|]. split; [eapply peerpoll_rest; eauto|].
    split; [eapply peerpoll_result; eauto|]. split; auto. split; auto. split; auto.
    split; [intros q []|]. intros q _ N. eapply peerpoll_other; eauto.
Qed.

(** The order in which peers are polled. *)
Lemma mod_shift_inj n k a b : a < n -> b < n -> (a + k) mod n = (b + k) mod n -> a = b.
Proof.
  intros Ha Hb E. assert (n <> 0) as Hn by lia.
  pose proof (Nat.div_mod (a + k) n Hn) as Da. pose proof (Nat.div_mod (b + k) n Hn) as Db.
  rewrite E in Da. set (x := (a + k) / n) in *. set (y := (b + k) / n) in *.
  set (r := (b + k) mod n) in *.
  destruct (Nat.lt_trichotomy x y) as [H|[H|H]]; [exfalso| |exfalso].
  - assert (n * y >= n * x + n) by nia. lia.
  - rewrite H in Da. lia.
  - assert (n * x >= n * y + n) by nia. lia.
Qed.

Lemma map_nodup_in {A B} (f : A -> B) l :
  (forall a b, In a l -> In b l -> f a = f b -> a = b) -> NoDup l -> NoDup (map f l).
Proof.
  intros Inj ND. induction ND as [|a l NI ND IH]; cbn; constructor.
  - intros H. apply in_map_iff in H. destruct H as (b & E & Hb). apply NI.
    rewrite (Inj a b); auto; [now left|now right].
  - apply IH. intros x y Hx Hy. apply Inj; now right.
Qed.

Lemma ptrs_nodup n k : NoDup (peer_ptrs_off n k).
Proof.
  unfold peer_ptrs_off. apply map_nodup_in; [|apply seq_NoDup].
  intros a b Ha Hb E. apply in_seq in Ha, Hb. apply (mod_shift_inj n k); [lia|lia|exact E].
Qed.

(** Peer [q] comes at position [j] when polling starts at offset [k]. *)
Definition pos (n k j q : nat) : Prop := j < n /\ q = (j + k) mod n.

Lemma pos_exists n k q : q < n -> exists j, pos n k j q.
Proof.
  intros H. assert (n <> 0) as Hn by lia. pose proof (Nat.mod_upper_bound k n Hn) as Hk.
  exists ((q + (n - k mod n)) mod n). split; [now apply Nat.mod_upper_bound|].
  rewrite Nat.add_mod_idemp_l by exact Hn.
  rewrite <- (Nat.add_mod_idemp_r _ k n Hn).
  replace (q + (n - k mod n) + k mod n) with (q + 1 * n) by lia.
  rewrite Nat.mod_add by exact Hn. symmetry. now apply Nat.mod_small.
Qed.

Lemma pos_next n k i j p q : pos n k i p -> pos n k j q -> i < j -> pos n (S p) (j - i - 1) q.
Proof.
  intros [Hi ->] [Hj ->] L. assert (n <> 0) as Hn by lia. split; [lia|].
  replace (j - i - 1 + S ((i + k) mod n)) with (j - i + (i + k) mod n) by lia.
  rewrite Nat.add_mod_idemp_r by exact Hn. f_equal. lia.
Qed.

Lemma ptrs_in n k q : In q (peer_ptrs_off n k) <-> q < n.
Proof.
  split; [apply peer_ptrs_off_lt|]. intros H. destruct (pos_exists n k q H) as (j & Hj & ->).
  unfold peer_ptrs_off. apply in_map_iff. exists j. split; auto. apply in_seq. lia.
Qed.

Lemma ptrs_split n k l1 p l2 : peer_ptrs_off n k = l1 ++ p :: l2 ->
  pos n k (length l1) p /\ (forall i, i < length l1 -> In ((i + k) mod n) l1).
Proof.
  intros E.
  assert (length (peer_ptrs_off n k) = n) as L.
  { unfold peer_ptrs_off. now rewrite map_length, seq_length. }
  assert (forall i, i < n -> nth_error (peer_ptrs_off n k) i = Some ((i + k) mod n)) as Nt.
  { intros i Hi. unfold peer_ptrs_off. rewrite nth_error_map.
    rewrite (nth_error_nth' (seq 0 n) 0) by now rewrite seq_length.
    cbn [option_map]. now rewrite seq_nth. }
  rewrite E, app_length in L. cbn [length] in L.
  split.
  - split; [lia|]. specialize (Nt (length l1) ltac:(lia)). rewrite E in Nt.
    rewrite nth_error_app2, Nat.sub_diag in Nt by lia. cbn in Nt. congruence.
  - intros i Hi. specialize (Nt i ltac:(lia)). rewrite E in Nt.
    rewrite nth_error_app1 in Nt by lia. eapply nth_error_In; eauto.
Qed.
End Scan.

(** * C10 *)

Section Hint.
Context (P : prims).

Lemma key_wait_gone now die c v :
  (forall v, die (new_store v) = None) ->
  let c' := if due_opt now (die c) then new_store v else c in
  due_opt now (die c') = false /\ key_wait now (die c) <= wait_opt now (die c').
Proof.
  intros H c'. subst c'. unfold key_wait. destruct (due_opt now (die c)) eqn:D.
  - rewrite H. cbn. split; auto. lia.
  - split; auto. apply Z.le_min_r.
Qed.

(** No deadline of a key is reached. *)
Definition keys_quiet (now : time) (s : srv) : Prop :=
  due_opt now (bk_die_at (s_bk0 s)) = false /\ due_opt now (bk_die_at (s_bk1 s)) = false /\
  due_opt now (sec_die_at (s_cs0 s)) = false /\ due_opt now (sec_die_at (s_cs1 s)) = false.
Definition peer_quiet (now : time) (x : peer) : Prop :=
  peer_event now x = EvNone /\ hs_dead now x = false /\ known_dead now x = false.

Lemma erase_keys_quiet now c s : keys_quiet now s -> erase_keys now c s = s.
Proof.
  intros (A & B & C & D). unfold erase_keys, erase_sec, erase_bk. cbn [get_bk get_cs].
  now rewrite A, B, C, D.
Qed.

Lemma erase_keys_stores now c s :
  let f die (st : cookie_store) i :=
    if due_opt now (die st) then new_store (c_erase c i) else st in
  s_bk0 (erase_keys now c s) = f bk_die_at (s_bk0 s) 0%nat /\
  s_bk1 (erase_keys now c s) = f bk_die_at (s_bk1 s) 1%nat /\
  s_cs0 (erase_keys now c s) = f sec_die_at (s_cs0 s) 2%nat /\
  s_cs1 (erase_keys now c s) = f sec_die_at (s_cs1 s) 3%nat.
Proof.
  cbn zeta. unfold erase_keys.
  set (s1 := erase_bk now c false s). set (s2 := erase_bk now c true s1).
  set (s3 := erase_sec now c false s2).
  assert (s_bk0 s1 = (if due_opt now (bk_die_at (s_bk0 s)) then new_store (c_erase c 0) else s_bk0 s)
    /\ s_bk1 s1 = s_bk1 s /\ s_cs0 s1 = s_cs0 s /\ s_cs1 s1 = s_cs1 s) as (A1 & A2 & A3 & A4).
  { unfold s1, erase_bk. cbn [get_bk]. destruct (due_opt _ _); auto. }
  assert (s_bk0 s2 = s_bk0 s1 /\
    s_bk1 s2 = (if due_opt now (bk_die_at (s_bk1 s1)) then new_store (c_erase c 1) else s_bk1 s1)
    /\ s_cs0 s2 = s_cs0 s1 /\ s_cs1 s2 = s_cs1 s1) as (B1 & B2 & B3 & B4).
  { unfold s2, erase_bk. cbn [get_bk]. clear s2 s3. clearbody s1.
    destruct (due_opt now (bk_die_at (s_bk1 s1))); repeat split; reflexivity. }
  assert (s_bk0 s3 = s_bk0 s2 /\ s_bk1 s3 = s_bk1 s2 /\
    s_cs0 s3 = (if due_opt now (sec_die_at (s_cs0 s2)) then new_store (c_erase c 2) else s_cs0 s2)
    /\ s_cs1 s3 = s_cs1 s2) as (C1 & C2 & C3 & C4).
  { unfold s3, erase_sec. cbn [get_cs]. clear s3. clearbody s2.
    destruct (due_opt now (sec_die_at (s_cs0 s2))); repeat split; reflexivity. }
  clearbody s3. clearbody s2. clearbody s1.
  unfold erase_sec at 1 2 3 4. cbn [get_cs].
  rewrite C4, B4, A4. destruct (due_opt now (sec_die_at (s_cs1 s)));
    cbn [set_cs s_bk0 s_bk1 s_cs0 s_cs1];
    rewrite ?C4, ?B4, ?A4, C1, C2, C3, B1, B2, B3, A1, A2, A3; auto.
Qed.

Lemma rest_stores s s' : rest s' = rest s ->
  s_bk0 s' = s_bk0 s /\ s_bk1 s' = s_bk1 s /\ s_cs0 s' = s_cs0 s /\ s_cs1 s' = s_cs1 s.
Proof. unfold rest. intros [=]. auto. Qed.

Lemma exec_npeers c s s' r : inv P s -> valid c s -> exec P c s = (s', r) ->
  match c_op c with OAddPeer _ _ _ _ => True | _ => npeers s' = npeers s end.
Proof.
  intros I V E. pose proof (exec_grows P c s I V) as W. unfold wp in W. rewrite E in W. apply W.
Qed.

Lemma pscan_quiet now c l s t s2 r :
  pscan P now c l s t s2 r -> (forall p x, pe s p = Some x -> peer_quiet now x) ->
  s2 = s /\ saturated r = false.
Proof.
  intros S. induction S as [s t|p x l s t s1 v s2 r I X PP G S IH|p x l s t s1 r I X PP G Sat];
    intros H; auto.
  - destruct (H p x X) as (A & B & C). inversion PP; subst.
    match goal with K : hs_dead now x = false -> _ |- _ => specialize (K B C); subst end. auto.
  - destruct (H p x X) as (A & B & C). destruct PP; try congruence; discriminate Sat.
Qed.

Lemma set_off_same s : s_poll_off s = 0%nat -> set_poll_off 0 s = s.
Proof. destruct s; cbn; intros ->; reflexivity. Qed.

Lemma poll_quiet c s : inv P s -> c_op c = OPoll -> valid c s -> s_poll_off s = 0%nat ->
  keys_quiet (c_now c) s -> (forall p x, pe s p = Some x -> peer_quiet (c_now c) x) ->
  exists u, exec P c s = (s, Ok (RPolled (Sleep u))).
Proof.
  intros I Eo V O K Q. destruct (exec P c s) as [s' r] eqn:E.
  destruct (exec_poll_step P c s s' r I V Eo E) as (r0 & -> & S).
  destruct (pollstep_pscan P _ _ _ _ _ I S) as (s2 & -> & S2).
  rewrite (erase_keys_quiet _ _ _ K) in S2.
  destruct (pscan_quiet _ _ _ _ _ _ _ S2 Q) as [-> Sat].
  destruct r0 as [u|p|p|p]; try discriminate. exists u. cbn [next_off result_peer].
  now rewrite set_off_same.
Qed.

Lemma wait_quiet now now' t o : t <= wait_opt now o -> now' + 2500 <= now + t ->
  due_opt now' o = false.
Proof.
  destruct o as [d|]; cbn [wait_opt due_opt]; auto. intros A B. apply due_not.
  unfold reached. lia.
Qed.

Lemma settle_quiet now now' t x :
  now <= now' -> now' + 2500 <= now + t -> t <= peer_wait now x ->
  peer_quiet now' (settle now x).
Proof.
  intros Hn Ht W. unfold peer_wait in W. cbn zeta in W. unfold settle.
  set (x1 := drop_hs now x) in *. set (x2 := drop_known now x1).
  assert (p_session x2 = p_session x1 /\ p_handshake x2 = p_handshake x1 /\
          p_init_req x2 = p_init_req x1) as (Es & Eh & Er).
  { unfold x2, drop_known. destruct (known_dead now x1); auto. }
  assert (hs_dead now' x2 = false) as Hd.
  { unfold hs_dead. rewrite Eh. eapply (wait_quiet now now' t); eauto.
    etransitivity; [exact W|].
    assert (key_wait now (hs_die_at (p_handshake x)) <= wait_opt now (hs_die_at (p_handshake x1))).
    2:{ lia. }
    unfold x1, drop_hs, hs_dead. unfold key_wait.
    destruct (due_opt now (hs_die_at (p_handshake x))) eqn:D; [reflexivity|].
    apply Z.le_min_r. }
  assert (known_dead now' x2 = false) as Kd.
  { unfold known_dead. eapply (wait_quiet now now' t); eauto.
    etransitivity; [exact W|]. etransitivity; [apply Z.le_min_r|].
    unfold x2, drop_known, known_dead, key_wait.
    destruct (due_opt now (known_die_at (p_known x1))) eqn:D; [reflexivity|]. apply Z.le_min_r. }
  split; [|auto]. unfold peer_event. cbn zeta.
  replace (drop_hs now' x2) with x2 by (unfold drop_hs; now rewrite Hd).
  assert (ses_dead now' x2 = false) as ->.
  { unfold ses_dead. rewrite Es. eapply (wait_quiet now now' t); eauto. lia. }
  assert (init_due now' x2 = false) as ->.
  { unfold init_due, has_happened. apply Z.ltb_ge. change EVENT_GRACE with 2500.
    unfold init_wait. rewrite Es, Eh, Er.
    assert (t <= init_wait now x1) as Wi by lia.
    unfold init_wait in Wi. rewrite !wait_and_max in *.
    assert (forall o, or_immediate (left now' o) = or_immediate (left now o) - (now' - now) \/
                      or_immediate (left now o) = 0) as Lf.
    { intros [d|]; cbn; lia. }
    destruct (Lf (ses_retire_at (p_session x1))), (Lf (hs_retire_at (p_handshake x1)));
      destruct (p_init_req x1); cbn [immediate_unless] in *; change UNENDING with 28800000000 in *; lia. }
  assert (retry_due now' x2 = false) as ->; auto.
  unfold retry_due. rewrite Eh. eapply (wait_quiet now now' t); eauto. lia.
Qed.
End Hint.

(** If poll returns [Sleep t] at time [now], then polling again, at any time from [now] up to
    2.5 ms (the event grace) before [now + t] and with any random draws, again returns a sleep
    hint and changes nothing at all. *)
Theorem C10_sleep_hint_safe : forall P s c s' t c',
  reachable P s ->
  c_op c = OPoll -> valid c s -> exec P c s = (s', Ok (RPolled (Sleep t))) ->
  c_op c' = OPoll -> valid c' s' ->
  c_now c <= c_now c' -> c_now c' + 2500 <= c_now c + t ->
  exists t', exec P c' s' = (s', Ok (RPolled (Sleep t'))).
Proof.
  intros P s c s' t c' (s0 & h & Hi & R) Eo V E Eo' V' Hn Ht.
  pose proof (run_inv P _ _ _ (initial_inv P _ Hi) R) as I.
  pose proof (exec_inv P _ _ _ _ I V E) as I'.
  destruct (exec_poll_step P c s s' _ I V Eo E) as (r0 & Er & S). injection Er as <-.
  destruct (pollstep_pscan P _ _ _ _ _ I S) as (s2 & -> & S2). clear S.
  destruct (pscan_sleep P _ _ _ _ _ _ _ S2 (ptrs_nodup _ _)) as (A & B & C & D).
  apply poll_quiet; auto.
  - destruct (erase_keys_stores (c_now c) (c_coins c) s) as (K0 & K1 & K2 & K3).
    assert (forall v, bk_die_at (new_store v) = None) as Nb by reflexivity.
    assert (forall v, sec_die_at (new_store v) = None) as Nc by reflexivity.
    pose proof (proj2 (key_wait_gone (c_now c) bk_die_at (s_bk0 s) (c_erase (c_coins c) 0) Nb)) as B0.
    pose proof (proj2 (key_wait_gone (c_now c) bk_die_at (s_bk1 s) (c_erase (c_coins c) 1) Nb)) as B1.
    pose proof (proj2 (key_wait_gone (c_now c) sec_die_at (s_cs0 s) (c_erase (c_coins c) 2) Nc)) as B2.
    pose proof (proj2 (key_wait_gone (c_now c) sec_die_at (s_cs1 s) (c_erase (c_coins c) 3) Nc)) as B3.
    cbn zeta in B0, B1, B2, B3. rewrite <- K0 in B0. rewrite <- K1 in B1. rewrite <- K2 in B2.
    rewrite <- K3 in B3.
    unfold keys_wait in B. destruct (rest_stores _ _ A) as (E0 & E1 & E2 & E3).
    unfold keys_quiet. cbn [set_poll_off s_bk0 s_bk1 s_cs0 s_cs1].
    rewrite E0, E1, E2, E3.
    split; [|split; [|split]]; eapply (wait_quiet (c_now c) (c_now c') t); eauto; lia.
  - intros p x X.
    assert (In p (peer_ptrs_off (npeers s) (s_poll_off s))) as Hp.
    { apply ptrs_in. apply pe_lt in X. pose proof (exec_npeers P c s _ _ I V E) as En.
      rewrite Eo in En. now rewrite En in X. }
    destruct (D p Hp) as (y & _ & _ & W & Y).
    assert (pe s2 p = Some x) as X2 by exact X. rewrite X2 in Y. injection Y as ->.
    eapply settle_quiet; eauto.
Qed.
Print Assumptions C10_sleep_hint_safe.

(** After the handshake the responder polls: it may sleep for minutes. *)
Example C10_nonvacuous : exists c s' t c',
  reachable Demo.P Demo.B3 /\
  c_op c = OPoll /\ valid c Demo.B3 /\ exec Demo.P c Demo.B3 = (s', Ok (RPolled (Sleep t))) /\
  c_op c' = OPoll /\ valid c' s' /\ c_now c < c_now c' /\ c_now c' + 2500 <= c_now c + t.
Proof.
  exists (Demo.mk (secs 5) x01 OPoll). eexists. eexists. exists (Demo.mk (secs 120) x02 OPoll).
  split; [exact Demo.reachB3|]. split; [reflexivity|].
  split; [split; [apply Demo.wf_coin|exact Logic.I]|].
  split; [vm_compute; reflexivity|]. split; [reflexivity|].
  split; [split; [apply Demo.wf_coin|exact Logic.I]|]. split; vm_compute; [reflexivity|discriminate].
Qed.

(** * C11 *)

Section Cases.
Context (P : prims).

Lemma erase_pe now c s q : pe (erase_keys now c s) q = pe s q.
Proof. destruct (erase_keys_frame now c s) as (_&_&_&E&_). unfold pe. now rewrite E. Qed.

(** What a poll does to the peers. *)
Lemma poll_cases c s s' r0 : inv P s -> valid c s -> c_op c = OPoll ->
  exec P c s = (s', r0) ->
  (exists t, r0 = Ok (RPolled (Sleep t)) /\ s_poll_off s' = 0%nat /\
     forall q x, pe s q = Some x ->
       peer_event (c_now c) x = EvNone /\ pe s' q = Some (settle (c_now c) x)) \/
  (exists r p x x' j, r0 = Ok (RPolled r) /\ result_peer r = Some p /\ s_poll_off s' = S p /\
     pe s p = Some x /\ pe s' p = Some x' /\ pos (npeers s) (s_poll_off s) j p /\
     (peer_event (c_now c) x = EvDelete /\ r = DeleteKey p /\
        x' = set_session None (drop_hs (c_now c) x) \/
      peer_event (c_now c) x = EvInit /\ r = SendInitiation p /\
        x' = set_init_req true (drop_hs (c_now c) x) \/
      peer_event (c_now c) x = EvRetry /\ r = SendRetransmission p /\
        x' = retried (c_now c) (c_coins c) (drop_hs (c_now c) x)) /\
     (forall q y i, q <> p -> pe s q = Some y -> pos (npeers s) (s_poll_off s) i q -> (i < j)%nat ->
        peer_event (c_now c) y = EvNone) /\
     (forall q y, q <> p -> pe s q = Some y ->
        pe s' q = Some y \/ peer_event (c_now c) y = EvNone /\ pe s' q = Some (settle (c_now c) y))).
Proof.
  intros I V Eo E.
  destruct (exec_poll_step P c s s' r0 I V Eo E) as (r & -> & S).
  destruct (pollstep_pscan P _ _ _ _ _ I S) as (s2 & -> & S2). clear S E.
  destruct (saturated r) eqn:Sat.
  - right. destruct (pscan_event P _ _ _ _ _ _ _ S2 (ptrs_nodup _ _) Sat)
      as (l1 & p & l2 & x & s1 & El & A & Er & X & X1 & PP & D & F).
    destruct (ptrs_split _ _ _ _ _ El) as (Hp & Hl1).
    rewrite erase_pe in X.
    assert (exists x', pe s2 p = Some x' /\
      (peer_event (c_now c) x = EvDelete /\ r = DeleteKey p /\
        x' = set_session None (drop_hs (c_now c) x) \/
      peer_event (c_now c) x = EvInit /\ r = SendInitiation p /\
        x' = set_init_req true (drop_hs (c_now c) x) \/
      peer_event (c_now c) x = EvRetry /\ r = SendRetransmission p /\
        x' = retried (c_now c) (c_coins c) (drop_hs (c_now c) x))) as (x' & X' & K).
    { destruct PP as [s2 Ev R|s2 Ev R|s2 Ev R|s2 Ev R _]; try discriminate Sat;
        (eexists; split; [eapply st_rel_self; exact R|]); auto 6. }
    exists r, p, x, x', (length l1). split; [reflexivity|]. split; [exact Er|].
    split; [cbn [set_poll_off s_poll_off]; unfold next_off; now rewrite Er|].
    split; [exact X|]. split; [exact X'|]. split; [exact Hp|]. split; [exact K|]. split.
    + intros q y i Nq Y [Hi ->] Lt.
      destruct (D _ (Hl1 i Lt)) as (y' & Y' & Ev & _). rewrite erase_pe in Y'. congruence.
    + intros q y Nq Y. destruct (in_dec Nat.eq_dec q l1) as [H|H].
      * right. destruct (D _ H) as (y' & Y' & Ev & Y2). rewrite erase_pe in Y'.
        assert (y' = y) as -> by congruence. auto.
      * left. transitivity (pe s2 q); [reflexivity|]. now rewrite F, erase_pe.
  - left. destruct r as [t| | |]; try discriminate. exists t. split; [reflexivity|].
    split; [reflexivity|]. intros q x X.
    destruct (pscan_sleep P _ _ _ _ _ _ _ S2 (ptrs_nodup _ _)) as (_ & _ & _ & D).
    destruct (D q) as (y & Y & Ev & _ & Y2).
    { apply ptrs_in. now apply pe_lt in X. }
    rewrite erase_pe in Y. assert (y = x) as -> by congruence. auto.
Qed.

(** Calls other than poll leave the offset alone. *)
Lemma off_msgstep now c rx tx s s' r : msgstep P now c rx tx s s' r -> s_poll_off s' = s_poll_off s.
Proof.
  assert (forall s s', rest s' = rest s -> s_poll_off s' = s_poll_off s) as Hr.
  { unfold rest. now intros a b [=]. }
  intros M. destruct M as [e|q x ck a e FT L T|q x ck FT L T CS
    |q x h ic core s1 FT L Hi Hp Hh Hs Hn Hc CS R
    |q x h ic core s1 FT L Hi Hp Hh Hs Hn Hc CS R
    |q x k' FT L EK Hp Hk Hm CS
    |e s1 s2 FT L EK F1 F2 K1 K2
    |s0 a q x bno core s1 e FT L EK HA K0 K1 HI SF R
    |s0 q x bno core s1 s2 FT L EK HA K0 K1 HI SF R CS R2
    |q x h u FT L Hi Hp Hh Hs Hn Hu CS Ht D
    |q x h u s1 pt FT L Hi Hp Hh Hs Hn Hu CS Ht D R
    |q x h mac v FT L Hi Hp Hd Hh Hm D
    |q x h mac v FT L Hi Hp Hd Hh Hm D]; auto;
    try (destruct (after_biscuit_frame now c s) as (_&_&_&_&_&_&E&_); exact E);
    try (apply Hr; exact (sr_rest _ _ _ _ _ R)).
  - rewrite (Hr _ _ (ic_failed_rest P _ _ _ _ F2)). exact (Hr _ _ (ic_failed_rest P _ _ _ _ F1)).
  - rewrite (Hr _ _ (sr_rest _ _ _ _ _ R)).
    destruct HA as [[_ ->]|[_ F]]; auto. exact (Hr _ _ (ic_failed_rest P _ _ _ _ F)).
  - rewrite (Hr _ _ (sr_rest _ _ _ _ _ R2)), (Hr _ _ (sr_rest _ _ _ _ _ R)).
    destruct HA as [[_ ->]|[_ F]]; auto. exact (Hr _ _ (ic_failed_rest P _ _ _ _ F)).
Qed.

Lemma off_exec c s s' r : inv P s -> valid c s -> exec P c s = (s', r) -> c_op c <> OPoll ->
  s_poll_off s' = s_poll_off s.
Proof.
  intros I V E N. pose proof (exec_step P c s s' r I V E) as S.
  destruct (cs_choice_frame (c_now c) (c_coins c) s) as (_&_&_&_&_&_&_&_&EO).
  inversion S as [psk pk a ds Eo|psk pk a ds Eo|q tx q' Eo|q tx x s1 Eo X Fr R
    |rx tx s1 r0 Eo M|rx tx host s1 r0 Eo M|s1 r0 Eo Ps|q tx r0 Eo N'|q r0 Eo N']; subst; auto.
  - pose proof (sr_rest _ _ _ _ _ R) as H. unfold rest in H. now injection H.
  - eapply off_msgstep; eauto.
  - destruct M as [e|s1 r FT M|s1 r FT L CV M|e FT|i l FT L EL CV]; auto.
    + eapply off_msgstep; eauto.
    + rewrite <- EO. eapply off_msgstep; eauto.
  - congruence.
Qed.
End Cases.

Definition is_poll (e : call * res err outcome) : bool :=
  match c_op (fst e) with OPoll => true | _ => false end.
Definition polls (h : list (call * res err outcome)) : nat := length (filter is_poll h).
(** Some poll in [h] reported an event for peer [q]. *)
Definition poll_reports (h : list (call * res err outcome)) (q : nat) : Prop :=
  exists c r, In (c, Ok (RPolled r)) h /\ c_op c = OPoll /\ result_peer r = Some q.

(** The condition on a history: no peer is added and peer [q] has an event due at each poll. *)
Definition waits (q : nat) (c : call) (s : srv) : Prop :=
  (forall psk pk a ds, c_op c <> OAddPeer psk pk a ds) /\
  (c_op c = OPoll -> exists x, pe s q = Some x /\ event_due (c_now c) x).

Lemma fair_run P q s h s' j :
  inv P s -> run_if P (waits q) s h s' -> pos (npeers s) (s_poll_off s) j q ->
  (j < polls h)%nat -> poll_reports h q.
Proof.
  intros I R. revert I j. induction R as [s|s c r s1 h s2 V [Na W] E R IH]; intros I j Hj L.
  { cbn in L. lia. }
  pose proof (exec_inv P _ _ _ _ I V E) as I1.
  assert (npeers s1 = npeers s) as En.
  { pose proof (exec_npeers P c s s1 r I V E) as En. destruct (c_op c) eqn:Eo; auto.
    exfalso. eapply Na. eauto. }
  assert (forall j', pos (npeers s) (s_poll_off s1) j' q -> (j' < polls h)%nat ->
    poll_reports ((c, r) :: h) q) as K.
  { intros j' Hp Hl. destruct (IH I1 j') as (c' & r' & Hin & Ho & Hr); [now rewrite En|exact Hl|].
    exists c', r'. split; auto. now right. }
  destruct (is_poll (c, r)) eqn:Ep.
  - assert (c_op c = OPoll) as Eo.
    { unfold is_poll in Ep. cbn [fst] in Ep. destruct (c_op c); congruence. }
    unfold polls in L. cbn [filter] in L. rewrite Ep in L. cbn [length] in L. fold (polls h) in L.
    destruct (W Eo) as (x & X & D).
    destruct (poll_cases P c s s1 r I V Eo E)
      as [(t & -> & _ & Q)|(r0 & p & y & y' & i & -> & Er & Off & Y & Y' & Hi & _ & Bef & _)].
    + exfalso. destruct (Q q x X) as [Ev _]. now apply peer_event_none in Ev.
    + destruct (Nat.eq_dec p q) as [->|Npq].
      { exists c, r0. split; [now left|]. auto. }
      assert (~ (j < i)%nat) as Nji.
      { intros Lt. pose proof (Bef q x j (not_eq_sym Npq) X Hj Lt) as Ev.
        now apply peer_event_none in Ev. }
      assert (j <> i) as Nij.
      { intros ->. destruct Hi as [_ ->], Hj as [_ ->]. congruence. }
      apply (K (j - i - 1)%nat); [|lia]. rewrite Off. eapply pos_next; eauto. lia.
  - assert (c_op c <> OPoll) as Eo.
    { intros Eo. unfold is_poll in Ep. cbn [fst] in Ep. now rewrite Eo in Ep. }
    unfold polls in L. cbn [filter] in L. rewrite Ep in L. fold (polls h) in L.
    apply (K j); auto. now rewrite (off_exec P c s s1 r I V E Eo).
Qed.

(** Whatever other calls happen in between and whatever the other peers have pending: if peer
    [q] has an event due at each of as many polls as there are peers, one of them reports it. *)
Theorem C11_poll_is_fair : forall P s q h s',
  reachable P s -> (q < npeers s)%nat -> run_if P (waits q) s h s' -> (npeers s <= polls h)%nat ->
  poll_reports h q.
Proof.
  intros P s q h s' (s0 & h0 & Hi & R0) Hq R L.
  pose proof (run_inv P _ _ _ (initial_inv P _ Hi) R0) as I.
  destruct (pos_exists (npeers s) (s_poll_off s) q Hq) as (j & Hj).
  eapply fair_run; eauto. destruct Hj. lia.
Qed.
Print Assumptions C11_poll_is_fair.

(** An expired session or a due initiation does not go away by itself, so for polls with
    non-decreasing clock readings it need only be due at the first one. *)
Definition lasting (now : time) (x : peer) : Prop := session_expired now x \/ initiation_due now x.

Inductive only_polls P : time -> srv -> list (call * res err outcome) -> srv -> Prop :=
| op_nil t s : only_polls P t s [] s
| op_cons t s c r s1 h s2 : c_op c = OPoll -> valid c s -> t <= c_now c -> exec P c s = (s1, r) ->
    only_polls P (c_now c) s1 h s2 -> only_polls P t s ((c, r) :: h) s2.

Lemma lasting_later now now' x : now <= now' -> lasting now x -> lasting now' x.
Proof.
  intros H [(u & E & D)|(A & B & C)].
  - left. exists u. split; auto. unfold reached in *. lia.
  - right. split; auto. split.
    + intros u E. specialize (B u E). unfold reached in *. lia.
    + intros (h & E & D). apply C. exists h. split; auto. unfold reached in *. lia.
Qed.

Lemma only_polls_waits P q t s h s' x :
  inv P s -> only_polls P t s h s' -> pe s q = Some x -> lasting t x ->
  poll_reports h q \/ run_if P (waits q) s h s'.
Proof.
  intros I R. revert I x. induction R as [t s|t s c r s1 h s2 Eo V Ht E R IH]; intros I x X D.
  { right. constructor. }
  pose proof (exec_inv P _ _ _ _ I V E) as I1.
  pose proof (lasting_later _ _ _ Ht D) as D'.
  assert (event_due (c_now c) x) as Ed by (unfold event_due; destruct D'; auto).
  assert (poll_reports ((c, r) :: h) q \/ pe s1 q = Some x) as [F|X1]; [|now left|].
  { destruct (poll_cases P c s s1 r I V Eo E)
      as [(u & -> & _ & Q)|(r0 & p & y & y' & i & -> & Er & _ & _ & _ & _ & _ & _ & Oth)].
    - exfalso. destruct (Q q x X) as [Ev _]. now apply peer_event_none in Ev.
    - destruct (Nat.eq_dec p q) as [->|N]; [left; exists c, r0; split; [now left|auto]|].
      destruct (Oth q x (not_eq_sym N) X) as [H|[Ev _]]; auto.
      exfalso. now apply peer_event_none in Ev. }
  destruct (IH I1 x X1 D') as [(c' & r' & Hin & Ho & Hr)|Rr].
  - left. exists c', r'. split; auto. now right.
  - right. econstructor; eauto. split; [congruence|]. intros _. eauto.
Qed.

Theorem C11_reported_in_time : forall P s q x t h s',
  reachable P s -> pe s q = Some x -> lasting t x ->
  only_polls P t s h s' -> length h = npeers s -> poll_reports h q.
Proof.
  intros P s q x t h s' Rs X D R L. pose proof Rs as (s0 & h0 & Hi & R0).
  pose proof (run_inv P _ _ _ (initial_inv P _ Hi) R0) as I.
  destruct (only_polls_waits P q t s h s' x I R X D) as [H|W]; auto.
  eapply C11_poll_is_fair; eauto; [now apply pe_lt in X|].
  assert (polls h = length h) as ->; [|lia].
  clear - R. induction R as [|? ? ? ? ? ? ? Eo]; auto. unfold polls in *. cbn [filter].
  unfold is_poll at 1. cbn [fst]. rewrite Eo. cbn [length]. now f_equal.
Qed.
Print Assumptions C11_reported_in_time.

(** * C12 *)

Lemma event_delete now x : peer_event now x = EvDelete <-> session_expired now x.
Proof.
  unfold peer_event. rewrite <- ses_dead_spec. cbn zeta.
  assert (ses_dead now (drop_hs now x) = ses_dead now x) as -> by
    (unfold ses_dead; now rewrite drop_hs_session).
  destruct (ses_dead now x), (init_due now (drop_hs now x)), (retry_due now (drop_hs now x)); intuition congruence.
Qed.
Lemma event_init now x : peer_event now x = EvInit -> initiation_due now x.
Proof.
  unfold peer_event. rewrite <- init_due_spec. cbn zeta.
  destruct (ses_dead now (drop_hs now x)), (init_due now (drop_hs now x)), (retry_due now (drop_hs now x)); congruence.
Qed.
Lemma event_retry now x : peer_event now x = EvRetry -> retransmission_due now x.
Proof.
  unfold peer_event. rewrite <- retry_due_spec. cbn zeta.
  destruct (ses_dead now (drop_hs now x)), (init_due now (drop_hs now x)), (retry_due now (drop_hs now x)); congruence.
Qed.

Lemma settle_session now x : p_session (settle now x) = p_session x.
Proof. unfold settle, drop_known. rewrite <- (drop_hs_session now x). now destruct (known_dead now (drop_hs now x)). Qed.
Lemma settle_req now x : p_init_req (settle now x) = p_init_req x.
Proof. unfold settle, drop_known. rewrite <- (drop_hs_req now x). now destruct (known_dead now (drop_hs now x)). Qed.
Lemma settle_hs now x : p_handshake (settle now x) = p_handshake (drop_hs now x).
Proof. unfold settle, drop_known. now destruct (known_dead now (drop_hs now x)). Qed.

(** [DeleteKey p]: the peer's session had reached 180 s (less 2.5 ms) and is gone. *)
Theorem C12_delete_key : forall P s c s' p,
  reachable P s -> valid c s -> c_op c = OPoll ->
  exec P c s = (s', Ok (RPolled (DeleteKey p))) ->
  exists x x', pe s p = Some x /\ pe s' p = Some x' /\
    session_expired (c_now c) x /\ p_session x' = None.
Proof.
  intros P s c s' p (s0 & h0 & Hi & R0) V Eo E.
  pose proof (run_inv P _ _ _ (initial_inv P _ Hi) R0) as I.
  destruct (poll_cases P c s s' _ I V Eo E)
    as [(u & [=] & _)|(r0 & q & y & y' & i & Er0 & Er & _ & Y & Y' & _ & K & _)].
  injection Er0 as <-. cbn in Er. injection Er as <-.
  exists y, y'. split; auto. split; auto. destruct K as [(A & _ & ->)|[(_ & [=] & _)|(_ & [=] & _)]].
  split; [now apply event_delete|reflexivity].
Qed.
Print Assumptions C12_delete_key.

(** A poll ends a session only by reporting it, and changes no session otherwise. *)
Theorem C12_no_silent_delete : forall P s c s' r p x,
  reachable P s -> valid c s -> c_op c = OPoll -> exec P c s = (s', r) ->
  pe s p = Some x -> r <> Ok (RPolled (DeleteKey p)) ->
  exists x', pe s' p = Some x' /\ p_session x' = p_session x.
Proof.
  intros P s c s' r p x (s0 & h0 & Hi & R0) V Eo E X Nr.
  pose proof (run_inv P _ _ _ (initial_inv P _ Hi) R0) as I.
  destruct (poll_cases P c s s' _ I V Eo E)
    as [(u & -> & _ & Q)|(r0 & q & y & y' & i & -> & Er & _ & Y & Y' & _ & K & _ & Oth)].
  - destruct (Q p x X) as [_ X']. exists (settle (c_now c) x). split; auto. apply settle_session.
  - destruct (Nat.eq_dec p q) as [->|N].
    + assert (y = x) as -> by congruence. exists y'. split; auto.
      destruct K as [(_ & -> & _)|[(_ & _ & ->)|(_ & _ & ->)]].
      * congruence.
      * cbn. apply drop_hs_session.
      * unfold retried. destruct (p_handshake _); cbn; apply drop_hs_session.
    + destruct (Oth p x N X) as [H|[_ H]]; [eauto|]. exists (settle (c_now c) x).
      split; auto. apply settle_session.
Qed.
Print Assumptions C12_no_silent_delete.

(** When poll returns a sleep hint nothing expired remains: no session or handshake that has
    reached 180 s, no cached reply that has reached 120 s. *)
Theorem C12_sleep_means_clean : forall P s c s' t p x,
  reachable P s -> valid c s -> c_op c = OPoll ->
  exec P c s = (s', Ok (RPolled (Sleep t))) -> pe s' p = Some x ->
  (forall u, p_session x = Some u -> ~ reached (c_now c) (se_created u + secs 180)) /\
  (forall h, p_handshake x = Some h -> ~ reached (c_now c) (hs_created h + secs 180)) /\
  (forall k, p_known x = Some k -> 0 <= kr_received k ->
     ~ reached (c_now c) (kr_received k + secs 120)).
Proof.
  intros P s c s' t p x (s0 & h0 & Hi & R0) V Eo E X.
  pose proof (run_inv P _ _ _ (initial_inv P _ Hi) R0) as I.
  pose proof (exec_npeers P c s _ _ I V E) as En. rewrite Eo in En.
  destruct (poll_cases P c s s' _ I V Eo E)
    as [(u & Eu & _ & Q)|(r0 & q & y & y' & i & Er0 & Er & _)].
  2:{ injection Er0 as <-. discriminate. }
  pose proof (pe_lt _ _ _ X) as Lp. rewrite En in Lp. destruct (pe_some s p Lp) as [y Y].
  destruct (Q p y Y) as [Ev Y']. assert (x = settle (c_now c) y) as -> by congruence.
  rewrite settle_session, settle_hs. split; [|split].
  - intros v Ev' Hr. apply peer_event_none in Ev. apply Ev. left. exists v. auto.
  - intros h Hh. apply drop_hs_some in Hh. apply Hh.
  - intros k Hk Pos Hr. unfold settle, drop_known in Hk.
    destruct (known_dead (c_now c) (drop_hs (c_now c) y)) eqn:D; [discriminate|].
    unfold known_dead, due_opt, known_die_at in D. rewrite Hk in D.
    destruct (Z.ltb_spec (kr_received k) 0); [lia|]. apply due_not in D. auto.
Qed.
Print Assumptions C12_sleep_means_clean.

(** And an expired session is really reported: within as many polls as there are peers. *)
Theorem C12_expired_is_reported : forall P s q x t h s',
  reachable P s -> pe s q = Some x -> session_expired t x ->
  only_polls P t s h s' -> length h = npeers s ->
  exists c, In (c, Ok (RPolled (DeleteKey q))) h.
Proof.
  intros P s q x t h s' Rs X D R L.
  pose proof (C11_reported_in_time P s q x t h s' Rs X (or_introl D) R L) as (c0 & r0 & Hin & _ & Hr).
  destruct Rs as (s0 & h0 & Hi & R0).
  pose proof (run_inv P _ _ _ (initial_inv P _ Hi) R0) as I. clear Hi R0 L.
  revert I x X D Hin. induction R as [t s|t s c r s1 h s2 Eo V Ht E R IH]; intros I x X D Hin; [destruct Hin|].
  pose proof (exec_inv P _ _ _ _ I V E) as I1.
  assert (session_expired (c_now c) x) as D'.
  { destruct D as (u & A & B). exists u. split; auto. unfold reached in *. lia. }
  destruct (poll_cases P c s s1 r I V Eo E)
    as [(u & -> & _ & Q)|(r1 & p & y & y' & i & -> & Er & _ & Y & _ & _ & K & _ & Oth)].
  - exfalso. destruct (Q q x X) as [Ev _]. apply peer_event_none in Ev. apply Ev. now left.
  - destruct (Nat.eq_dec p q) as [->|N].
    + assert (y = x) as -> by congruence. apply event_delete in D'.
      destruct K as [(_ & -> & _)|[(Ev & _)|(Ev & _)]]; try congruence.
      exists c. now left.
    + destruct (Oth q x (not_eq_sym N) X) as [X1|[Ev _]].
      2:{ apply event_delete in D'. congruence. }
      destruct Hin as [[= -> ->]|Hin]; [congruence|].
      destruct (IH I1 x X1 D' Hin) as (c' & Hc). exists c'. now right.
Qed.
Print Assumptions C12_expired_is_reported.

(** * C13 *)

Section Requests.
Context (P : prims).

Definition same_req (s s' : srv) : Prop :=
  forall q x, pe s q = Some x -> exists x', pe s' q = Some x' /\ p_init_req x' = p_init_req x.

Lemma same_req_refl s : same_req s s.
Proof. intros q x X. eauto. Qed.
Lemma same_req_trans a b c : same_req a b -> same_req b c -> same_req a c.
Proof.
  intros A B q x X. destruct (A q x X) as (y & Y & E). destruct (B q y Y) as (z & Z & F).
  exists z. split; auto. congruence.
Qed.
Lemma same_req_frame s s' : s_peers s' = s_peers s -> same_req s s'.
Proof. intros E q x X. exists x. split; auto. unfold pe in *. now rewrite E. Qed.
Lemma same_req_rel s s' p x x' f : pe s p = Some x -> st_rel s s' p x' f ->
  p_init_req x' = p_init_req x -> same_req s s'.
Proof.
  intros X R E q y Y. rewrite (sr_pe _ _ _ _ _ R). destruct (Nat.eqb_spec p q) as [->|]; [|eauto].
  exists x'. split; auto. congruence.
Qed.
Lemma same_req_failed s s' ic a : length (ic_biscuit ic) = 116%nat ->
  ic_failed P s ic a s' -> same_req s s'.
Proof.
  intros L [[-> _]|(q & x & bno & core & q' & A & _ & _ & R)]; [apply same_req_refl|].
  destruct (ic_accept_bno P _ _ _ _ _ _ _ L A) as (_ & X & _).
  eapply same_req_rel; eauto.
Qed.

Lemma same_req_msgstep now c rx tx s s' r : msgstep P now c rx tx s s' r -> same_req s s'.
Proof.
  intros M. destruct M as [e|q x ck a e FT L T|q x ck FT L T CS
    |q x h ic core s1 FT L Hi Hp Hh Hs Hn Hc CS R
    |q x h ic core s1 FT L Hi Hp Hh Hs Hn Hc CS R
    |q x k' FT L EK Hp Hk Hm CS
    |e s1 s2 FT L EK F1 F2 K1 K2
    |s0 a q x bno core s1 e FT L EK HA K0 K1 HI SF R
    |s0 q x bno core s1 s2 FT L EK HA K0 K1 HI SF R CS R2
    |q x h u FT L Hi Hp Hh Hs Hn Hu CS Ht D
    |q x h u s1 pt FT L Hi Hp Hh Hs Hn Hu CS Ht D R
    |q x h mac v FT L Hi Hp Hd Hh Hm D
    |q x h mac v FT L Hi Hp Hd Hh Hm D]; try apply same_req_refl;
    try (destruct (after_biscuit_frame now c s) as (_&_&_&E&_); now apply same_req_frame).
  - eapply same_req_rel; [exact Hp|exact R|reflexivity].
  - eapply same_req_rel; [exact Hp|exact R|reflexivity].
  - pose proof (wf_rx_ic rx L) as (W1 & W2 & W3 & W4).
    eapply same_req_trans; [eapply same_req_failed; [|exact F1]; exact W3|].
    eapply same_req_failed; [|exact F2]; exact W3.
  - pose proof (wf_rx_ic rx L) as (W1 & W2 & W3 & W4).
    destruct (ic_accept_bno P _ _ _ _ _ _ _ W3 HI) as (_ & X & _).
    eapply same_req_trans; [|eapply same_req_rel; [exact X|exact R|reflexivity]].
    destruct HA as [[_ ->]|[_ F]]; [apply same_req_refl|eapply same_req_failed; [|exact F]; exact W3].
  - pose proof (wf_rx_ic rx L) as (W1 & W2 & W3 & W4).
    destruct (ic_accept_bno P _ _ _ _ _ _ _ W3 HI) as (_ & X & _).
    eapply same_req_trans; [|eapply same_req_rel; [eapply st_rel_self; exact R|exact R2|reflexivity]].
    eapply same_req_trans; [|eapply same_req_rel; [exact X|exact R|reflexivity]].
    destruct HA as [[_ ->]|[_ F]]; [apply same_req_refl|eapply same_req_failed; [|exact F]; exact W3].
  - eapply same_req_rel; [exact Hp|eapply with_peer_rel; exact Hp|reflexivity].
  - eapply same_req_rel; [exact Hp|exact R|reflexivity].
  - eapply same_req_rel; [exact Hp|eapply with_peer_rel; exact Hp|reflexivity].
  - eapply same_req_rel; [exact Hp|eapply with_peer_rel; exact Hp|reflexivity].
Qed.

(** An initiation is requested and not yet served. *)
Definition requested (q : nat) (s : srv) : Prop :=
  exists x, pe s q = Some x /\ p_init_req x = true.

Lemma requested_exec q c s s' r :
  inv P s -> valid c s -> exec P c s = (s', r) ->
  (forall tx m, c_op c = OInitiate q tx -> r <> Ok (RSent m)) ->
  requested q s -> requested q s'.
Proof.
  intros I V E N (x & X & Hr). pose proof (exec_step P c s s' r I V E) as S.
  assert (same_req s s' -> requested q s') as K.
  { intros K. destruct (K q x X) as (x' & X' & Ex). exists x'. split; auto. congruence. }
  inversion S as [psk pk a ds Eo|psk pk a ds Eo|p tx q' Eo|p tx y s1 Eo Y Fr R
    |rx tx s1 r0 Eo M|rx tx host s1 r0 Eo M|s1 r0 Eo Ps|p tx r0 Eo N'|p r0 Eo N']; subst;
    try (apply K, same_req_refl).
  - exists x. split; auto. unfold pe in *. cbn.
    rewrite nth_error_app1; auto. apply nth_error_Some. congruence.
  - unfold requested. rewrite (sr_pe _ _ _ _ _ R). destruct (Nat.eqb_spec p q) as [->|]; [|eauto].
    exfalso. eapply N; eauto.
  - apply K. eapply same_req_msgstep; eauto.
  - apply K. destruct (cs_choice_frame (c_now c) (c_coins c) s) as (_&_&_&_&_&F&_).
    pose proof (same_req_frame _ _ F) as K1.
    destruct M as [e|s1 r FT M|s1 r FT L CV M|e FT|i l FT L EL CV]; auto; try apply same_req_refl.
    + eapply same_req_msgstep; eauto.
    + eapply same_req_trans; [exact K1|]. eapply same_req_msgstep; eauto.
  - destruct (poll_cases P c s _ _ I V Eo E)
      as [(u & _ & _ & Q)|(r1 & p & y & y' & i & _ & Er & _ & Y & Y' & _ & Kc & _ & Oth)].
    + destruct (Q q x X) as [_ X']. exists (settle (c_now c) x). split; auto. now rewrite settle_req.
    + destruct (Nat.eq_dec p q) as [->|Np].
      * assert (y = x) as -> by congruence. exists y'. split; auto.
        destruct Kc as [(_ & _ & ->)|[(_ & _ & ->)|(_ & _ & ->)]].
        -- cbn. now rewrite drop_hs_req.
        -- reflexivity.
        -- unfold retried. destruct (p_handshake _); cbn; now rewrite drop_hs_req.
      * destruct (Oth q x (not_eq_sym Np) X) as [H|[_ H]]; [exists x; auto|].
        exists (settle (c_now c) x). split; auto. now rewrite settle_req.
Qed.
End Requests.

(** An initiation is requested only if none is pending, the session, if any, has reached its
    rekey age and no live handshake exists. *)
Theorem C13_request_is_due : forall P s c s' p,
  reachable P s -> valid c s -> c_op c = OPoll ->
  exec P c s = (s', Ok (RPolled (SendInitiation p))) ->
  exists x, pe s p = Some x /\ initiation_due (c_now c) x.
Proof.
  intros P s c s' p (s0 & h0 & Hi & R0) V Eo E.
  pose proof (run_inv P _ _ _ (initial_inv P _ Hi) R0) as I.
  destruct (poll_cases P c s s' _ I V Eo E)
    as [(u & [=] & _)|(r0 & q & y & y' & i & Er0 & Er & _ & Y & Y' & _ & K & _)].
  injection Er0 as <-. cbn in Er. injection Er as <-.
  exists y. split; auto. destruct K as [(_ & [=] & _)|[(A & _ & ->)|(_ & [=] & _)]].
  now apply event_init.
Qed.
Print Assumptions C13_request_is_due.

(** Peer [q] is not asked to initiate again before [initiate_handshake] for it succeeded. *)
Definition not_initiated P (q : nat) (c : call) (s : srv) : Prop :=
  forall tx m, c_op c = OInitiate q tx -> snd (exec P c s) <> Ok (RSent m).

Theorem C13_requested_once : forall P s0 h0 s1 c1 s2 q h s3 c2 s4,
  initial s0 -> run P s0 h0 s1 ->
  valid c1 s1 -> c_op c1 = OPoll -> exec P c1 s1 = (s2, Ok (RPolled (SendInitiation q))) ->
  run_if P (not_initiated P q) s2 h s3 ->
  valid c2 s3 -> c_op c2 = OPoll -> exec P c2 s3 <> (s4, Ok (RPolled (SendInitiation q))).
Proof.
  intros P s0 h0 s1 c1 s2 q h s3 c2 s4 Hi R0 V1 E1o E1 R V2 E2o E2.
  pose proof (run_inv P _ _ _ (initial_inv P _ Hi) R0) as I1.
  pose proof (exec_inv P _ _ _ _ I1 V1 E1) as I2.
  assert (requested q s2) as Q2.
  { destruct (poll_cases P c1 s1 s2 _ I1 V1 E1o E1)
      as [(u & [=] & _)|(r0 & p & y & y' & i & Er0 & Er & _ & Y & Y' & _ & K & _)].
    injection Er0 as <-. cbn in Er. injection Er as <-. exists y'. split; auto.
    destruct K as [(_ & [=] & _)|[(_ & _ & ->)|(_ & [=] & _)]]. reflexivity. }
  assert (requested q s3) as (x & X & Hr).
  { clear - R Q2 I2. revert Q2 I2. induction R as [s|s c r t h s' V N E R IH]; auto. intros Q2 I2.
    apply IH; [|eapply exec_inv; eauto]. eapply requested_exec; eauto.
    intros tx m Eo. specialize (N tx m Eo). now rewrite E in N. }
  destruct (C13_request_is_due P s3 c2 s4 q) as (y & Y & D & _); auto; [|congruence].
  assert (inv P s3) as _ by (eapply run_inv; [exact I2|]; eapply run_if_run; exact R).
  exists s0, (h0 ++ (c1, Ok (RPolled (SendInitiation q))) :: h). split; auto.
  eapply run_app; [exact R0|]. econstructor; eauto. eapply run_if_run; exact R.
Qed.
Print Assumptions C13_requested_once.

(** A due initiation is requested in time (the session is then not expired): see
    [C11_reported_in_time]. *)
Theorem C13_initiation_is_requested : forall P s q x t h s',
  reachable P s -> pe s q = Some x -> initiation_due t x -> p_session x = None ->
  only_polls P t s h s' -> length h = npeers s ->
  exists c, In (c, Ok (RPolled (SendInitiation q))) h.
Proof.
  intros P s q x t h s' Rs X D Ns R L.
  pose proof (C11_reported_in_time P s q x t h s' Rs X (or_intror D) R L) as (c0 & r0 & Hin & _ & Hr).
  destruct Rs as (s0 & h0 & Hi & R0).
  pose proof (run_inv P _ _ _ (initial_inv P _ Hi) R0) as I. clear Hi R0 L.
  revert I x X Ns D Hin. induction R as [t s|t s c r s1 h s2 Eo V Ht E R IH]; intros I x X Ns D Hin; [destruct Hin|].
  pose proof (exec_inv P _ _ _ _ I V E) as I1.
  assert (initiation_due (c_now c) x) as D'.
  { destruct (lasting_later _ _ x Ht (or_intror D)) as [(u & A & _)|]; auto. congruence. }
  assert (peer_event (c_now c) x = EvInit) as Ev0.
  { unfold peer_event. cbn zeta. rewrite (proj2 (init_due_spec (c_now c) x) D').
    unfold ses_dead. now rewrite drop_hs_session, Ns. }
  destruct (poll_cases P c s s1 r I V Eo E)
    as [(u & -> & _ & Q)|(r1 & p & y & y' & i & -> & Er & _ & Y & _ & _ & K & _ & Oth)].
  - exfalso. destruct (Q q x X) as [Ev _]. congruence.
  - destruct (Nat.eq_dec p q) as [->|N].
    + assert (y = x) as -> by congruence.
      destruct K as [(Ev & _)|[(_ & -> & _)|(Ev & _)]]; try congruence.
      exists c. now left.
    + destruct (Oth q x (not_eq_sym N) X) as [X1|[Ev _]]; [|congruence].
      destruct Hin as [[= -> ->]|Hin]; [congruence|].
      destruct (IH I1 x X1 Ns D' Hin) as (c' & Hc). exists c'. now right.
Qed.
Print Assumptions C13_initiation_is_requested.

(** A history that meets the hypotheses above: at 200 s the responder's session of 4 s is
    expired and is deleted; the next poll requests an initiation, the one after sleeps. *)
Definition p1 := Demo.mk (secs 200) x01 OPoll.
Definition q1 := Eval vm_compute in exec Demo.P p1 Demo.B3.
Definition p2 := Demo.mk (secs 201) x02 OPoll.
Definition q2 := Eval vm_compute in exec Demo.P p2 (fst q1).
Definition p3 := Demo.mk (secs 202) x03 OPoll.
Definition q3 := Eval vm_compute in exec Demo.P p3 (fst q2).
Example C11_C12_C13_nonvacuous :
  (exists x, pe Demo.B3 0 = Some x /\ session_expired (secs 200) x) /\
  exec Demo.P p1 Demo.B3 = q1 /\ snd q1 = Ok (RPolled (DeleteKey 0)) /\
  (exists x, pe (fst q1) 0 = Some x /\ initiation_due (secs 201) x /\ p_session x = None) /\
  exec Demo.P p2 (fst q1) = q2 /\ snd q2 = Ok (RPolled (SendInitiation 0)) /\
  exec Demo.P p3 (fst q2) = q3 /\ (exists t, snd q3 = Ok (RPolled (Sleep t))) /\
  npeers Demo.B3 = 1%nat /\ only_polls Demo.P (secs 200) Demo.B3 [(p1, snd q1)] (fst q1) /\
  run_if Demo.P (waits 0) Demo.B3 [(p1, snd q1)] (fst q1) /\
  run_if Demo.P (not_initiated Demo.P 0) (fst q2) [(p3, snd q3)] (fst q3).
Proof.
  assert (exists x, pe Demo.B3 0 = Some x /\ session_expired (secs 200) x) as H1.
  { eexists. split; [reflexivity|]. eexists. split; reflexivity. }
  split; [exact H1|]. split; [vm_compute; reflexivity|]. split; [reflexivity|].
  split.
  { eexists. split; [reflexivity|]. split; [|reflexivity]. split; [reflexivity|].
    split; [intros u [=]|]. intros (h & [=] & _). }
  split; [vm_compute; reflexivity|]. split; [reflexivity|]. split; [vm_compute; reflexivity|].
  split; [eexists; reflexivity|]. split; [reflexivity|].
  assert (forall c s, c_op c = OPoll -> c_coins c = Demo.coin x01 \/ c_coins c = Demo.coin x03 ->
    valid c s) as V.
  { intros c s Eo H. split; [destruct H as [->| ->]; apply Demo.wf_coin|]. now rewrite Eo. }
  split; [|split].
  - econstructor; [reflexivity|apply V; auto|reflexivity|vm_compute; reflexivity|constructor].
  - apply Demo.step_if; [apply V; auto| |vm_compute; reflexivity|constructor].
    split; [discriminate|]. intros _. destruct H1 as (x & X & D). exists x. split; auto. now left.
  - apply Demo.step_if; [apply V; auto|intros tx m [=]|vm_compute; reflexivity|constructor].
Qed.
