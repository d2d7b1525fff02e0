(** Rules for polling. *)
From Verif Require Import Base ConstTime Prims HashDomains Wire Server Protocol Wp Inv Rules Calls.
Local Open Scope m_scope.

(** A deadline [t] has been reached at [now], up to the event grace. *)
Definition due (now t : time) : bool := has_happened (t - now) 0.
Definition due_opt (now : time) (o : option time) : bool :=
  match o with Some t => due now t | None => false end.
(** Time until the deadline. *)
Definition wait_opt (now : time) (o : option time) : time :=
  match o with Some t => (t - now)%Z | None => UNENDING end.

Lemma happened_hibernate now o :
  has_happened (or_hibernate (left now o)) 0 = due_opt now o.
Proof. destruct o; reflexivity. Qed.

Lemma or_hibernate_wait now o : or_hibernate (left now o) = wait_opt now o.
Proof. destruct o; reflexivity. Qed.

Lemma sched_sleep t w f s (Q : srv -> res err poll_result -> Prop) :
  (has_happened w 0 = true -> wp (r <- f ;; foldM (Sleep t) r) Q s) ->
  (has_happened w 0 = false -> Q s (Ok (Sleep (Z.min t w)))) ->
  wp (sched (Sleep t) w f) Q s.
Proof.
  intros A B. unfold sched. cbn [saturated]. destruct (has_happened w 0).
  - auto.
  - unfold foldM. cbn [pfold unwrap]. apply wp_ret. auto.
Qed.

Lemma sched_sat r w f s (Q : srv -> res err poll_result -> Prop) :
  saturated r = true -> Q s (Ok r) -> wp (sched r w f) Q s.
Proof. intros E H. unfold sched. rewrite E. now apply wp_ret. Qed.

Lemma wp_foldM_sleep t r s (Q : srv -> res err poll_result -> Prop) :
  Q s (Ok (match r with Sleep u => Sleep (Z.min t u) | _ => r end)) ->
  wp (foldM (Sleep t) r) Q s.
Proof. intros H. unfold foldM. destruct r; cbn [pfold unwrap]; now apply wp_ret. Qed.

(** * Keys *)

Definition erase_bk (now : time) (c : coins) (i : bool) (s : srv) : srv :=
  if due_opt now (bk_die_at (get_bk i s))
  then set_bk i (new_store (c_erase c (if i then 1 else 0))) s else s.
Definition erase_sec (now : time) (c : coins) (i : bool) (s : srv) : srv :=
  if due_opt now (sec_die_at (get_cs i s))
  then set_cs i (new_store (c_erase c (if i then 3 else 2))) s else s.
Definition key_wait (now : time) (o : option time) : time :=
  if due_opt now o then UNENDING else Z.min UNENDING (wait_opt now o).

Lemma poll_bk_eq now c i s :
  poll_bk now c i s = (erase_bk now c i s, Ok (Sleep (key_wait now (bk_die_at (get_bk i s))))).
Proof.
  unfold poll_bk, bind, get, sched, erase_bk, key_wait, begin_poll. cbn [saturated].
  rewrite happened_hibernate, or_hibernate_wait.
  destruct (due_opt now (bk_die_at (get_bk i s))); reflexivity.
Qed.
Lemma poll_sec_eq now c i s :
  poll_sec now c i s = (erase_sec now c i s, Ok (Sleep (key_wait now (sec_die_at (get_cs i s))))).
Proof.
  unfold poll_sec, bind, get, sched, erase_sec, key_wait, begin_poll. cbn [saturated].
  rewrite happened_hibernate, or_hibernate_wait.
  destruct (due_opt now (sec_die_at (get_cs i s))); reflexivity.
Qed.

Definition erase_keys (now : time) (c : coins) (s : srv) : srv :=
  erase_sec now c true (erase_sec now c false (erase_bk now c true (erase_bk now c false s))).
Definition keys_wait (now : time) (s : srv) : time :=
  Z.min (key_wait now (bk_die_at (s_bk0 s)))
  (Z.min (key_wait now (bk_die_at (s_bk1 s)))
  (Z.min (key_wait now (sec_die_at (s_cs0 s)))
         (key_wait now (sec_die_at (s_cs1 s))))).

Lemma key_wait_le now o : (key_wait now o <= UNENDING)%Z.
Proof. unfold key_wait. destruct (due_opt now o); [reflexivity|]. apply Z.le_min_l. Qed.

Lemma erase_keys_frame now c s :
  let s' := erase_keys now c s in
  s_sskm s' = s_sskm s /\ s_spkm s' = s_spkm s /\ s_bctr s' = s_bctr s /\
  s_peers s' = s_peers s /\ s_index s' = s_index s /\ s_khkey s' = s_khkey s /\
  s_poll_off s' = s_poll_off s.
Proof.
  unfold erase_keys, erase_sec, erase_bk.
  repeat match goal with |- context [if ?b then _ else _] => destruct b end;
    repeat split; reflexivity.
Qed.

(** * One peer *)

Definition hs_dead (now : time) (x : peer) : bool := due_opt now (hs_die_at (p_handshake x)).
Definition ses_dead (now : time) (x : peer) : bool := due_opt now (ses_die_at (p_session x)).
Definition known_dead (now : time) (x : peer) : bool := due_opt now (known_die_at (p_known x)).
Definition retry_due (now : time) (x : peer) : bool :=
  due_opt now (option_map hs_retry_at (p_handshake x)).
(** Waiting time for the next initiation. *)
Definition init_wait (now : time) (x : peer) : time :=
  wait_and (wait_and (immediate_unless (p_init_req x))
                     (or_immediate (left now (ses_retire_at (p_session x)))))
           (or_immediate (left now (hs_retire_at (p_handshake x)))).
Definition init_due (now : time) (x : peer) : bool := has_happened (init_wait now x) 0.

(** After the removal of a dead handshake. *)
Definition drop_hs (now : time) (x : peer) : peer :=
  if hs_dead now x then set_handshake None x else x.
Definition ix_drop_hs (now : time) (f : ikey -> option nat) (x : peer) : ikey -> option nat :=
  if hs_dead now x then ix_hs_take f x else f.
Definition drop_known (now : time) (x : peer) : peer :=
  if known_dead now x then set_known None x else x.
Definition ix_drop_known (now : time) (f : ikey -> option nat) (x : peer) : ikey -> option nat :=
  if known_dead now x then ix_known_rm f x else f.

(** The event reported for a peer. *)
Inductive event := EvDelete | EvInit | EvRetry | EvNone.
Definition peer_event (now : time) (x : peer) : event :=
  let x1 := drop_hs now x in
  if ses_dead now x1 then EvDelete
  else if init_due now x1 then EvInit
  else if retry_due now x1 then EvRetry
  else EvNone.

Definition retried (now : time) (c : coins) (x : peer) : peer :=
  match p_handshake x with
  | Some h => set_handshake
      (Some (set_retry (now + retransmit_delay (hs_tx_count h) (c_jitter c))
                       (hs_tx_count h + 1) h)) x
  | None => x
  end.

(** The sleep time of a peer without event. *)
Definition peer_wait (now : time) (x : peer) : time :=
  let x1 := drop_hs now x in
  let t := key_wait now (hs_die_at (p_handshake x)) in
  let t := Z.min t (wait_opt now (ses_die_at (p_session x1))) in
  let t := Z.min t (init_wait now x1) in
  let t := Z.min t (Z.min UNENDING (wait_opt now (option_map hs_retry_at (p_handshake x1)))) in
  Z.min t (key_wait now (known_die_at (p_known x1))).

Section WithPrims.
Context (P : prims).

Lemma wp_poll_peer now c p x (Q : srv -> res err poll_result -> Prop) s :
  inv P s -> pe s p = Some x ->
  (forall s', peer_event now x = EvDelete ->
     st_rel s s' p (set_session None (drop_hs now x))
       (ix_ses_take (ix_drop_hs now (ix s) x) (drop_hs now x)) ->
     good P s s' -> Q s' (Ok (DeleteKey p))) ->
  (forall s', peer_event now x = EvInit ->
     st_rel s s' p (set_init_req true (drop_hs now x)) (ix_drop_hs now (ix s) x) ->
     good P s s' -> Q s' (Ok (SendInitiation p))) ->
  (forall s', peer_event now x = EvRetry ->
     st_rel s s' p (retried now c (drop_hs now x)) (ix_drop_hs now (ix s) x) ->
     good P s s' -> Q s' (Ok (SendRetransmission p))) ->
  (forall s', peer_event now x = EvNone ->
     st_rel s s' p (drop_known now (drop_hs now x))
       (ix_drop_known now (ix_drop_hs now (ix s) x) (drop_hs now x)) ->
     good P s s' ->
     ((hs_dead now x = false) -> (known_dead now x = false) -> s' = s) ->
     Q s' (Ok (Sleep (peer_wait now x)))) ->
  wp (poll_peer now c p) Q s.
Proof.
  intros I H QD QI QR QN. unfold peer_event in *. cbn zeta in *.
  unfold poll_peer. wstep. wstep. wstep.
  (* after the handshake step *)
  assert (forall s1, st_rel s s1 p (drop_hs now x) (ix_drop_hs now (ix s) x) -> good P s s1 ->
    (hs_dead now x = false -> s1 = s) ->
    wp (x0 <- get_peer p;;
        acc <- sched (Sleep (key_wait now (hs_die_at (p_handshake x))))
                 (or_hibernate (left now (ses_die_at (p_session x0))))
                 (ses_take p;;; ret (DeleteKey p));;
        x1 <- get_peer p;;
        acc0 <- sched acc
                 (wait_and
                    (wait_and (immediate_unless (p_init_req x1))
                       (or_immediate (left now (ses_retire_at (p_session x1)))))
                    (or_immediate (left now (hs_retire_at (p_handshake x1)))))
                 (upd_peer p (set_init_req true);;; ret (SendInitiation p));;
        acc1 <- poll_child acc0 (poll_hs now c p);; poll_child acc1 (poll_known now p)) Q s1) as K.
  { intros s1 R1 G1 E1. pose proof (st_rel_self _ _ _ _ _ R1) as X1.
    set (x1 := drop_hs now x) in *.
    wstep. wstep. wstep. apply sched_sleep; rewrite happened_hibernate; intros D; fold (ses_dead now x1) in D.
    { (* session dead *)
      wstep. wstep. eapply wp_ses_take; [exact X1|]. intros s2 R2. cbv beta iota. wstep.
      apply wp_foldM_sleep. cbv beta iota.
      assert (good P s1 s2) as G2 by (eapply good_ses_take; [apply G1|exact X1|exact R2]).
      pose proof (st_rel_self _ _ _ _ _ R2) as X2.
      wstep. wstep. wstep. apply sched_sat; [reflexivity|]. cbv beta iota.
      wstep. unfold poll_child at 1. cbn [saturated]. wstep. unfold poll_child. cbn [saturated].
      wstep. rewrite D in QD. apply QD; [reflexivity| |eapply good_trans; eauto].
      eapply st_rel_trans; [exact R1|]. eapply st_rel_ext; [exact R2|].
      intros k. unfold ix_ses_take, ix_drop.
      destruct (p_session x1); rewrite ?(sr_ix _ _ _ _ _ R1); reflexivity. }
    cbv beta iota. rewrite or_hibernate_wait. wstep. wstep. wstep.
    change (wait_and _ _) with (init_wait now x1). rewrite D in *.
    apply sched_sleep; fold (init_due now x1); intros D2; rewrite D2 in *.
    { wstep. wstep. eapply wp_upd_peer; [exact X1|]. cbv beta iota. wstep.
      apply wp_foldM_sleep. cbv beta iota.
      wstep. unfold poll_child at 1. cbn [saturated]. wstep. unfold poll_child. cbn [saturated].
      wstep. apply QI; [reflexivity| |].
      - eapply st_rel_trans; [exact R1|]. eapply st_rel_ext; [eapply with_peer_rel; exact X1|].
        intros k. apply (sr_ix _ _ _ _ _ R1).
      - eapply good_trans; [exact G1|]. eapply good_with_peer; [apply G1|exact X1| | | |]; auto.
        + split; reflexivity.
        + pose proof (i_wf P s1 (g_inv _ _ _ G1) p x1 X1) as W. destruct W. split; auto. }
    cbv beta iota. wstep. unfold poll_child at 1. cbn [saturated]. wstep.
    unfold poll_hs. wstep. wstep. apply sched_sleep; rewrite happened_hibernate;
      fold (retry_due now x1); intros D3; rewrite D3 in *.
    { unfold retry_due in D3. destruct (p_handshake x1) as [h|] eqn:Hh; [|discriminate].
      wstep. wstep. eapply wp_register_retransmission; [exact X1|exact Hh|]. cbv beta iota.
      wstep. apply wp_foldM_sleep. cbv beta iota. apply wp_foldM_sleep. cbv beta iota.
      unfold poll_child. cbn [saturated]. wstep. apply QR; [reflexivity| |].
      - eapply st_rel_trans; [exact R1|]. unfold retried. rewrite Hh.
        eapply st_rel_ext; [eapply with_peer_rel; exact X1|].
        intros k. apply (sr_ix _ _ _ _ _ R1).
      - eapply good_trans; [exact G1|].
        eapply good_put_hs; [apply G1|exact X1|exact Hh|reflexivity|].
        destruct (wp_hs _ (i_wf P s1 (g_inv _ _ _ G1) p x1 X1) h Hh) as (W1 & W2 & W3 & W4).
        repeat split; auto. }
    cbv beta iota. rewrite or_hibernate_wait. apply wp_foldM_sleep. cbv beta iota.
    unfold poll_child. cbn [saturated]. wstep. unfold poll_known. wstep. wstep.
    unfold peer_wait in QN. cbn zeta in QN. fold x1 in QN.
    apply sched_sleep; rewrite happened_hibernate; fold (known_dead now x1); intros D4.
    { wstep. wstep. eapply wp_known_remove; [exact X1| |].
      { intros v Hv. erewrite (i_known2 P s1); [discriminate|apply G1|exact X1|exact Hv]. }
      intros s2 R2. cbv beta iota. wstep. apply wp_foldM_sleep. cbv beta iota.
      apply wp_foldM_sleep. cbv beta iota.
      unfold known_dead in D4. unfold key_wait in QN at 2. rewrite D4 in QN.
      change (Z.min UNENDING UNENDING) with UNENDING.
      assert (known_dead now x = known_dead now x1) as EK.
      { unfold known_dead, x1, drop_hs. now destruct (hs_dead now x). }
      apply QN; [reflexivity| |eapply good_trans; [exact G1|]|].
      - eapply st_rel_trans; [exact R1|]. unfold drop_known, known_dead. rewrite D4.
        eapply st_rel_ext; [exact R2|]. intros k. unfold ix_drop_known, known_dead. rewrite D4.
        unfold ix_known_rm. destruct (p_known x1); rewrite ?(sr_ix _ _ _ _ _ R1); reflexivity.
      - eapply good_known_remove; [apply G1|exact X1|exact R2].
      - intros _ F. rewrite EK in F. unfold known_dead in F. congruence. }
    cbv beta iota. rewrite or_hibernate_wait. apply wp_foldM_sleep. cbv beta iota.
    unfold known_dead in D4. unfold key_wait in QN at 2. rewrite D4 in QN.
    apply QN; [reflexivity| |exact G1|].
    - unfold drop_known, known_dead, ix_drop_known, known_dead. rewrite D4. exact R1.
    - intros E _. now apply E1. }
  apply sched_sleep; rewrite happened_hibernate; fold (hs_dead now x); intros D;
    unfold key_wait at 1 in K; unfold hs_dead in D; rewrite D in K.
  - wstep. wstep. eapply wp_hs_take; [exact H|]. intros s1 R1. cbv beta iota. wstep.
    apply wp_foldM_sleep. cbv beta iota. change (Z.min UNENDING UNENDING) with UNENDING.
    apply K.
    + unfold drop_hs, ix_drop_hs, hs_dead. rewrite D. exact R1.
    + eapply good_hs_take; [exact I|exact H|exact R1].
    + unfold hs_dead. congruence.
  - cbv beta iota. rewrite or_hibernate_wait. apply K; auto.
    + unfold drop_hs, ix_drop_hs, hs_dead. rewrite D. now apply st_rel_refl.
    + now apply good_refl.
Qed.

(** * All peers *)

Inductive scan (now : time) (c : coins) : list nat -> srv -> time -> srv -> poll_result -> Prop :=
| scan_nil s t : scan now c [] s t s (Sleep t)
| scan_sleep p l s t s1 u s2 r :
    poll_peer now c p s = (s1, Ok (Sleep u)) ->
    scan now c l s1 (Z.min t u) s2 r -> scan now c (p :: l) s t s2 r
| scan_event p l s t s1 r :
    poll_peer now c p s = (s1, Ok r) -> saturated r = true ->
    scan now c (p :: l) s t s1 r.

Lemma pe_some s p : p < npeers s -> exists x, pe s p = Some x.
Proof.
  intros L. unfold pe. destruct (nth_error (s_peers s) p) eqn:E; [eauto|].
  apply nth_error_None in E. unfold npeers in L. lia.
Qed.

Lemma poll_peer_good now c p s : inv P s -> p < npeers s ->
  exists s' r, poll_peer now c p s = (s', Ok r) /\ good P s s' /\
    (saturated r = true -> result_peer r = Some p).
Proof.
  intros I L. destruct (pe_some s p L) as [x X].
  assert (wp (poll_peer now c p)
    (fun s' r => exists r', r = Ok r' /\ good P s s' /\
       (saturated r' = true -> result_peer r' = Some p)) s) as W.
  { apply wp_poll_peer with (x := x); auto; intros;
      (eexists; split; [reflexivity|]; split; [assumption|]; cbn; first [reflexivity|discriminate|intros; discriminate]). }
  unfold wp in W. destruct (poll_peer now c p s) as [s' r]. cbn [fst snd] in W.
  destruct W as (r' & -> & G & E). eauto.
Qed.

Lemma poll_children_scan now c l s t :
  inv P s -> (forall p, In p l -> p < npeers s) ->
  exists s' r, poll_children (Sleep t) (map (poll_peer now c) l) s = (s', Ok r) /\
    scan now c l s t s' r /\ good P s s'.
Proof.
  revert s t. induction l as [|p l IH]; intros s t I B.
  - exists s, (Sleep t). split; [reflexivity|]. split; [constructor|now apply good_refl].
  - destruct (poll_peer_good now c p s I (B p (or_introl eq_refl))) as (s1 & r & E & G & _).
    cbn [map poll_children saturated]. unfold bind at 1. rewrite E.
    destruct r as [u|q|q|q].
    + cbn [foldM pfold unwrap]. unfold bind at 1, foldM, unwrap, pfold, ret at 1.
      destruct (IH s1 (Z.min t u) (g_inv _ _ _ G)) as (s2 & r2 & E2 & S2 & G2).
      { intros q Hq. rewrite (g_n _ _ _ G). apply B. now right. }
      exists s2, r2. split; [exact E2|]. split; [econstructor; eauto|eapply good_trans; eauto].
    + exists s1, (DeleteKey q). split; [destruct l; reflexivity|].
      split; [now apply scan_event|exact G].
    + exists s1, (SendInitiation q). split; [destruct l; reflexivity|].
      split; [now apply scan_event|exact G].
    + exists s1, (SendRetransmission q). split; [destruct l; reflexivity|].
      split; [now apply scan_event|exact G].
Qed.

Lemma peer_ptrs_off_lt n k p : In p (peer_ptrs_off n k) -> p < n.
Proof.
  unfold peer_ptrs_off. intros H. apply in_map_iff in H. destruct H as (i & <- & Hi).
  apply in_seq in Hi. apply Nat.mod_upper_bound. lia.
Qed.

Lemma erase_keys_good now c s : inv P s -> good P s (erase_keys now c s).
Proof.
  intros I. destruct (erase_keys_frame now c s) as (A & B & C & D & E & F & _).
  apply good_frame; auto. rewrite C. apply (i_bctr P s I).
Qed.

Definition next_off (r : poll_result) : nat :=
  match result_peer r with Some p => S p | None => 0 end.

Lemma poll_eq now c s :
  inv P s ->
  exists s2 r, poll now c s = (set_poll_off (next_off r) s2, Ok r) /\
    scan now c (peer_ptrs_off (npeers s) (s_poll_off s)) (erase_keys now c s)
      (Z.min UNENDING (keys_wait now s)) s2 r /\
    good P s (set_poll_off (next_off r) s2).
Proof.
  intros I. unfold poll, poll_children at 1 2, begin_poll. cbn [saturated].
  unfold bind at 1. unfold bind at 1. rewrite poll_bk_eq.
  unfold bind at 1, foldM at 1. cbn [pfold unwrap]. unfold ret at 1. cbn [saturated].
  unfold bind at 1. rewrite poll_bk_eq.
  unfold bind at 1, foldM at 1. cbn [pfold unwrap]. unfold ret at 1. cbn [saturated].
  unfold ret at 1. unfold bind at 1. cbn [saturated].
  unfold bind at 1. rewrite poll_sec_eq.
  unfold bind at 1, foldM at 1. cbn [pfold unwrap]. unfold ret at 1. cbn [saturated].
  unfold bind at 1. rewrite poll_sec_eq.
  unfold bind at 1, foldM at 1. cbn [pfold unwrap]. unfold ret at 1. cbn [saturated].
  unfold ret at 1. unfold bind at 1, get.
  fold (erase_keys now c s).
  destruct (erase_keys_frame now c s) as (_ & _ & _ & D & _ & _ & F).
  rewrite D, F. fold (npeers s).
  match goal with |- context [poll_children (Sleep ?t)] =>
    replace t with (Z.min UNENDING (keys_wait now s)) end.
  2:{ unfold keys_wait. rewrite !Z.min_assoc.
      assert (get_bk true (erase_bk now c false s) = s_bk1 s) as ->
        by (unfold erase_bk; now destruct (due_opt _ _)).
      assert (get_cs false (erase_bk now c true (erase_bk now c false s)) = s_cs0 s) as ->
        by (unfold erase_bk; repeat destruct (due_opt _ _); reflexivity).
      assert (get_cs true (erase_sec now c false (erase_bk now c true (erase_bk now c false s))) = s_cs1 s) as ->
        by (unfold erase_bk, erase_sec; repeat destruct (due_opt _ _); reflexivity).
      reflexivity. }
  pose proof (erase_keys_good now c s I) as G.
  destruct (poll_children_scan now c (peer_ptrs_off (npeers s) (s_poll_off s))
              (erase_keys now c s) (Z.min UNENDING (keys_wait now s)) (g_inv _ _ _ G))
    as (s2 & r & E & S & G2).
  { intros p Hp. rewrite (g_n _ _ _ G). eapply peer_ptrs_off_lt; eauto. }
  exists s2, r. unfold bind at 1. rewrite E. split; [reflexivity|]. split; [exact S|].
  eapply good_trans; [exact G|]. eapply good_trans; [exact G2|].
  apply good_frame; try reflexivity; [apply G2|]. apply (i_bctr P s2 (g_inv _ _ _ G2)).
Qed.

Lemma poll_fine now c s : inv P s -> wp (poll now c) (fine P s) s.
Proof.
  intros I. destruct (poll_eq now c s I) as (s2 & r & E & _ & G). unfold wp. rewrite E.
  split; [exact G|discriminate].
Qed.

End WithPrims.
