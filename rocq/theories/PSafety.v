(** C05, C06, C07: the engine never panics, session ids lead to their owners, peers have
    distinct identities. *)
From Verif Require Import Base ConstTime Prims HashDomains Wire Server Protocol Wp Inv Rules Calls PollRules System Trans Demo.

(** * C05 *)

Theorem C05_no_panic : forall P s0 h s,
  initial s0 -> run P s0 h s -> forall c r, In (c, r) h -> r <> Panic.
Proof.
  intros P s0 h s I R. apply (initial_inv P) in I. induction R as [|s c r s1 h s2 V E R IH]; [easy|].
  intros c' r' [[= -> ->]|H].
  - pose proof (exec_grows P c' s I V) as W. unfold wp in W. rewrite E in W. apply W.
  - eapply IH; eauto. eapply exec_inv; eauto.
Qed.
Print Assumptions C05_no_panic.

(** The same for one more call after any history. *)
Theorem C05_next_call : forall P s c, reachable P s -> valid c s -> snd (exec P c s) <> Panic.
Proof.
  intros P s c R V. pose proof (exec_grows P c s (reachable_inv P s R) V) as W.
  apply W.
Qed.
Print Assumptions C05_next_call.

(** The complete handshake of the toy servers is such a history; and the obligations on the
    caller cannot be dropped: an unknown peer or a short buffer does panic or fail. *)
Example C05_nonvacuous : initial Demo.A0 /\ run Demo.P Demo.A0 Demo.hA Demo.A4 /\ length Demo.hA = 4.
Proof. split; [exact Demo.initA|split; [exact Demo.runA|reflexivity]]. Qed.
Example C05_precondition_needed :
  snd (exec Demo.P (Demo.mk 0 x00 (OOsk 7)) Demo.A0) = Panic.
Proof. reflexivity. Qed.

(** * C06 *)

(** Peer [x] currently uses session id [id]: as the id of its session or of its initiator
    handshake. *)
Definition owns (x : peer) (id : bytes) : Prop :=
  (exists u, p_session x = Some u /\ se_sidm u = id) \/
  (exists h, p_handshake x = Some h /\ hc_sidi (hs_cor h) = id).

Lemma bytes_eqb_iff a b : bytes_eqb a b = true <-> a = b.
Proof. apply bytes_eqb_eq. Qed.
Lemma bytes_eqb_spec a b : Bool.reflect (a = b) (bytes_eqb a b).
Proof. apply Bool.iff_reflect. symmetry. apply bytes_eqb_eq. Qed.

Lemma has_id_owns id x : has_id id x = true <-> owns x id.
Proof.
  unfold has_id, owns, ses_has_id, hs_has_id. rewrite Bool.orb_true_iff.
  split; intros [H|H]; [left|right|left|right].
  - destruct (p_session x) as [u|]; [|easy]. apply bytes_eqb_iff in H. eauto.
  - destruct (p_handshake x) as [u|]; [|easy]. apply bytes_eqb_iff in H. eauto.
  - destruct H as (u & -> & <-). now apply bytes_eqb_iff.
  - destruct H as (u & -> & <-). now apply bytes_eqb_iff.
Qed.

Theorem C06_found_id_is_owned : forall P s id p,
  reachable P s -> idx_get (KSid id) (s_index s) = Some p ->
  exists x, nth_error (s_peers s) p = Some x /\ owns x id.
Proof.
  intros P s id p R H. destruct (i_sid P s (reachable_inv P s R) _ _ H) as (x & X & O).
  exists x. split; auto. now apply has_id_owns.
Qed.
Print Assumptions C06_found_id_is_owned.

Theorem C06_peer_ids : forall P s id p,
  reachable P s ->
  (find_peer s id = Some p <->
   exists x, nth_error (s_peers s) p = Some x /\ peer_id P (p_alg x) (p_spkt x) = id).
Proof.
  intros P s id p R. pose proof (reachable_inv P s R) as I. split.
  - intros H. destruct (i_peer1 P s I _ _ H) as (x & X & O). eauto.
  - intros (x & X & <-). apply (i_peer2 P s I p x X).
Qed.
Print Assumptions C06_peer_ids.

(** Every live id is found. *)
Definition comp (s : srv) : Prop :=
  forall p x id, pe s p = Some x -> has_id id x = true -> ix s (KSid id) = Some p.

Lemma comp_step s s' p x x' f :
  comp s -> pe s p = Some x -> st_rel s s' p x' f ->
  (forall id, has_id id x' = true -> f (KSid id) = Some p) ->
  (forall id q, q <> p -> ix s (KSid id) = Some q -> f (KSid id) = Some q) -> comp s'.
Proof.
  intros C X [A B _ _] F1 F2 q y id. rewrite A, B. destruct (Nat.eqb_spec p q) as [<-|N].
  - intros [= <-]. apply F1.
  - intros Y O. apply F2; auto. eapply C; eauto.
Qed.

Lemma comp_frame s s' : s_peers s' = s_peers s -> s_index s' = s_index s -> comp s -> comp s'.
Proof. intros A B C p x id. unfold pe, ix. rewrite A, B. apply C. Qed.

Lemma has_ses id x u : p_session x = Some u -> se_sidm u = id -> has_id id x = true.
Proof. intros H E. apply has_id_owns. left. eauto. Qed.
Lemma has_hs id x h : p_handshake x = Some h -> hs_sid h = id -> has_id id x = true.
Proof. intros H E. apply has_id_owns. right. eauto. Qed.

(** Removal keeps the entries of others, provided the removed id belonged to the peer. *)
Lemma hs_take_others s p x id q :
  comp s -> pe s p = Some x -> q <> p -> ix s (KSid id) = Some q ->
  ix_hs_take (ix s) x (KSid id) = Some q.
Proof.
  intros C X N E. unfold ix_hs_take, ix_drop. destruct (p_handshake x) as [h|] eqn:H; auto.
  destruct (ses_has_id _ _); auto. cbn [ikey_eqb].
  destruct (bytes_eqb_spec id (hs_sid h)) as [->|_]; auto.
  rewrite (C p x _ X (has_hs _ _ _ H eq_refl)) in E. congruence.
Qed.
Lemma ses_take_others s p x id q :
  comp s -> pe s p = Some x -> q <> p -> ix s (KSid id) = Some q ->
  ix_ses_take (ix s) x (KSid id) = Some q.
Proof.
  intros C X N E. unfold ix_ses_take, ix_drop. destruct (p_session x) as [u|] eqn:H; auto.
  destruct (hs_has_id _ _); auto. cbn [ikey_eqb].
  destruct (bytes_eqb_spec id (se_sidm u)) as [->|_]; auto.
  rewrite (C p x _ X (has_ses _ _ _ H eq_refl)) in E. congruence.
Qed.
Lemma hs_take_mine s p x x' id :
  comp s -> pe s p = Some x -> (forall i, ses_has_id i (p_session x') = ses_has_id i (p_session x)) ->
  p_handshake x' = None ->
  has_id id x' = true -> ix_hs_take (ix s) x (KSid id) = Some p.
Proof.
  intros C X S H O. assert (has_id id x = true) as O2.
  { unfold has_id in *. rewrite S, H in O. cbn [hs_has_id] in O. rewrite Bool.orb_false_r in O.
    now rewrite O. }
  pose proof (C _ _ _ X O2) as E. unfold ix_hs_take, ix_drop.
  destruct (p_handshake x) as [h|] eqn:Hh; auto.
  destruct (ses_has_id (hs_sid h) (p_session x)) eqn:Es; auto. cbn [ikey_eqb].
  destruct (bytes_eqb_spec id (hs_sid h)) as [->|_]; auto.
  unfold has_id in O. rewrite S, H, Es in O. discriminate.
Qed.
Lemma ses_take_mine s p x x' id :
  comp s -> pe s p = Some x -> p_handshake x' = p_handshake x -> p_session x' = None ->
  has_id id x' = true -> ix_ses_take (ix s) x (KSid id) = Some p.
Proof.
  intros C X S H O. assert (has_id id x = true) as O2.
  { unfold has_id in *. rewrite S, H in O. cbn [ses_has_id] in O. cbn [orb] in O.
    rewrite O. apply Bool.orb_true_r. }
  pose proof (C _ _ _ X O2) as E. unfold ix_ses_take, ix_drop.
  destruct (p_session x) as [h|] eqn:Hh; auto.
  destruct (hs_has_id (se_sidm h) (p_handshake x)) eqn:Es; auto. cbn [ikey_eqb].
  destruct (bytes_eqb_spec id (se_sidm h)) as [->|_]; auto.
  unfold has_id in O. rewrite S, H, Es in O. discriminate.
Qed.

Lemma comp_hs_take s s' p x x' : comp s -> pe s p = Some x ->
  (forall i, ses_has_id i (p_session x') = ses_has_id i (p_session x)) -> p_handshake x' = None ->
  st_rel s s' p x' (ix_hs_take (ix s) x) -> comp s'.
Proof.
  intros C X S H R. eapply comp_step; eauto.
  - intros id O. eapply hs_take_mine; eauto.
  - intros id q N E. eapply hs_take_others; eauto.
Qed.
Lemma comp_ses_take s s' p x x' : comp s -> pe s p = Some x ->
  p_handshake x' = p_handshake x -> p_session x' = None ->
  st_rel s s' p x' (ix_ses_take (ix s) x) -> comp s'.
Proof.
  intros C X S H R. eapply comp_step; eauto.
  - intros id O. eapply ses_take_mine; eauto.
  - intros id q N E. eapply ses_take_others; eauto.
Qed.
Lemma comp_same s s' p x x' f : comp s -> pe s p = Some x ->
  (forall id, has_id id x' = true -> has_id id x = true) ->
  (forall id, f (KSid id) = ix s (KSid id)) ->
  st_rel s s' p x' f -> comp s'.
Proof.
  intros C X S H R. eapply comp_step; eauto.
  - intros id O. rewrite H. eapply C; eauto.
  - intros id q N E. now rewrite H.
Qed.

Section WithPrims.
Context (P : prims).

Lemma comp_rh s s' p x h core now tail :
  comp s -> pe s p = Some x -> p_handshake x = Some h ->
  hc_sidi core = hs_sid h ->
  (exists h', tail = Some h' /\ hs_sid h' = hs_sid h) ->
  st_rel s s' p (set_handshake tail
     (set_session (Some (enter_live P now core Initiator (p_alg x))) x))
     (ix_add (ix_ses_take (ix s) x) (hs_sid h) p) -> comp s'.
Proof.
  intros C X H Ec (h' & -> & Eh) R. eapply comp_step; eauto.
  - intros id O. unfold ix_add. cbn [ikey_eqb].
    destruct (bytes_eqb_spec id (hs_sid h)) as [->|N]; auto. exfalso.
    apply has_id_owns in O. destruct O as [(u & U & E)|(u & U & E)]; cbn in U; injection U as <-.
    + cbn in E. congruence.
    + apply N. rewrite <- Eh. now symmetry.
  - intros id q N E. unfold ix_add. cbn [ikey_eqb].
    destruct (bytes_eqb_spec id (hs_sid h)) as [->|_].
    + rewrite (C p x _ X (has_hs _ _ _ H eq_refl)) in E. congruence.
    + eapply ses_take_others; eauto.
Qed.

Lemma comp_ic_failed s s' ic a : length (ic_biscuit ic) = 116 -> comp s -> ic_failed P s ic a s' -> comp s'.
Proof.
  intros L C [[-> _]|(p & x & bno & core & q & A & N & E & R)]; auto.
  assert (pe s p = Some x) as X by (eapply ic_accept_bno; eauto).
  eapply comp_ses_take; [exact C|exact X| | |exact R]; reflexivity.
Qed.

Lemma comp_ic s s' p x u bno :
  comp s -> pe s p = Some x ->
  (ix_ses_take (ix s) x (KSid (se_sidm u)) = None \/
   ix_ses_take (ix s) x (KSid (se_sidm u)) = Some p) ->
  st_rel s s' p (set_handshake None
     (set_session (Some (set_txnm 1 u)) (set_biscuit_used bno x))) (ix_ic (ix s) x u p) -> comp s'.
Proof.
  intros C X F R. eapply comp_step; eauto.
  - intros id O. unfold ix_ic, ix_hs_take. cbn [p_handshake p_session set_session].
    apply has_id_owns in O. destruct O as [(v & V & E)|(v & V & E)]; cbn in V; [|discriminate].
    injection V as <-. cbn in E. subst id.
    assert (ix_add (ix_ses_take (ix s) x) (se_sidm u) p (KSid (se_sidm u)) = Some p) as A.
    { unfold ix_add. cbn [ikey_eqb]. now rewrite (proj2 (bytes_eqb_iff _ _) eq_refl). }
    destruct (p_handshake x) as [h|]; auto. unfold ix_drop. cbn [ses_has_id].
    destruct (bytes_eqb_spec (se_sidm u) (hs_sid h)) as [Eq|Ne]; auto. cbn [ikey_eqb].
    destruct (bytes_eqb_spec (se_sidm u) (hs_sid h)); auto. congruence.
  - intros id q N E. pose proof (ses_take_others _ _ _ _ _ C X N E) as E1.
    assert (ix_add (ix_ses_take (ix s) x) (se_sidm u) p (KSid id) = Some q) as A.
    { unfold ix_add. cbn [ikey_eqb]. destruct (bytes_eqb_spec id (se_sidm u)) as [->|]; auto.
      destruct F as [F|F]; rewrite E1 in F; congruence. }
    unfold ix_ic, ix_hs_take. cbn [p_handshake p_session set_session].
    destruct (p_handshake x) as [h|] eqn:H; auto. unfold ix_drop.
    destruct (ses_has_id _ _); auto. cbn [ikey_eqb].
    destruct (bytes_eqb_spec id (hs_sid h)) as [->|]; auto.
    rewrite (C p x _ X (has_hs _ _ _ H eq_refl)) in E. congruence.
Qed.

Lemma comp_msgstep now c rx tx s s' r :
  inv P s -> comp s -> msgstep P now c rx tx s s' r -> comp s'.
Proof.
  intros I C M. destruct M as [e|p x ck a e FT L T|p x ck FT L T CS
    |p x h ic core s1 FT L Hi Hp Hh Hs Hn Hc CS R
    |p x h ic core s1 FT L Hi Hp Hh Hs Hn Hc CS R
    |p x k FT L EK Hp Hk Hm CS
    |e s1 s2 FT L EK F1 F2 K1 K2
    |s0 a p x bno core s1 e FT L EK HA K0 K1 HI SF R
    |s0 p x bno core s1 s2 FT L EK HA K0 K1 HI SF R CS R2
    |p x h u FT L Hi Hp Hh Hs Hn Hu CS Ht D
    |p x h u s1 pt FT L Hi Hp Hh Hs Hn Hu CS Ht D R
    |p x h mac v FT L Hi Hp Hd Hh Hm D
    |p x h mac v FT L Hi Hp Hd Hh Hm D]; auto.
  - destruct (after_biscuit_frame now c s) as (E1 & E2 & E3 & E4 & E5 & _). eapply comp_frame; eauto.
  - destruct (after_biscuit_frame now c s) as (E1 & E2 & E3 & E4 & E5 & _). eapply comp_frame; eauto.
  - eapply comp_rh with (tail := Some (erased h)); [exact C|exact Hp|exact Hh| | |exact R].
    + eapply handle_rh_compute_sidi; eauto.
    + eexists; split; reflexivity.
  - eapply comp_rh with (tail := Some (stored now c (ic_msg P now x h core ic tx) (erased h)));
      [exact C|exact Hp|exact Hh| | |exact R].
    + eapply handle_rh_compute_sidi; eauto.
    + eexists; split; reflexivity.
  - pose proof (wf_rx_ic rx L) as (W1 & W2 & W3 & W4).
    eapply comp_ic_failed; [exact W3| |exact F2]. eapply comp_ic_failed; [exact W3| |exact F1]. auto.
  - pose proof (wf_rx_ic rx L) as (W1 & W2 & W3 & W4).
    assert (comp s0) as C0.
    { destruct HA as [[_ ->]|[_ F]]; auto. eapply comp_ic_failed; eauto. }
    destruct (ic_accept_bno P _ _ _ _ _ _ _ W3 HI) as (_ & X & _ & _ & Er & _).
    eapply comp_ic; [exact C0|exact X| |exact R]. cbn. rewrite Er. exact SF.
  - pose proof (wf_rx_ic rx L) as (W1 & W2 & W3 & W4).
    assert (comp s0) as C0.
    { destruct HA as [[_ ->]|[_ F]]; auto. eapply comp_ic_failed; eauto. }
    destruct (ic_accept_bno P _ _ _ _ _ _ _ W3 HI) as (_ & X & _ & _ & Er & _).
    assert (comp s1) as C1.
    { eapply comp_ic; [exact C0|exact X| |exact R]. cbn. rewrite Er. exact SF. }
    eapply comp_same; [exact C1|eapply st_rel_self; exact R| | |exact R2].
    + auto.
    + intros id. unfold ix_known_rm. cbn [ikey_eqb]. now destruct (p_known x).
  - eapply comp_same; [exact C|exact Hp| | |eapply with_peer_rel; exact Hp]; auto.
    intros id O. apply has_id_owns in O. apply has_id_owns.
    destruct O as [(v & V & E)|(v & V & E)]; cbn in V; [injection V as <-; left; eauto|right; eauto].
  - eapply comp_hs_take; [exact C|exact Hp| | |eapply st_rel_ext; [exact R|]].
    + intros i. cbn. now rewrite Hu.
    + reflexivity.
    + intros k. unfold ix_hs_take. cbn. rewrite Hh, Hu. reflexivity.
  - eapply comp_same; [exact C|exact Hp| | |eapply with_peer_rel; exact Hp]; auto.
    intros id O. apply has_id_owns in O. apply has_id_owns.
    destruct O as [(w & V & E)|(w & V & E)]; cbn in V; [left; eauto|injection V as <-; right; eauto].
  - eapply comp_same; [exact C|exact Hp| | |eapply with_peer_rel; exact Hp]; auto.
    intros id O. apply has_id_owns in O. apply has_id_owns.
    destruct O as [(w & V & E)|(w & V & E)]; cbn in V; [left; eauto|injection V as <-; right; eauto].
Qed.

Lemma comp_drop_hs now s s' p x x' :
  comp s -> pe s p = Some x -> p_session x' = p_session (drop_hs now x) ->
  p_handshake x' = p_handshake (drop_hs now x) ->
  st_rel s s' p x' (ix_drop_hs now (ix s) x) -> comp s'.
Proof.
  intros C X S H R. unfold drop_hs, ix_drop_hs in *. destruct (hs_dead now x).
  - eapply comp_hs_take; [exact C|exact X| | |exact R]; auto. intros i. now rewrite S.
  - eapply comp_same; [exact C|exact X| |auto|exact R]. unfold has_id. now rewrite S, H.
Qed.

Lemma has_id_eq x x' : p_session x' = p_session x -> p_handshake x' = p_handshake x ->
  forall id, has_id id x' = has_id id x.
Proof. intros A B id. unfold has_id. now rewrite A, B. Qed.

Lemma comp_peerpoll now c p x s s' r :
  comp s -> pe s p = Some x -> peerpoll now c p x s s' r -> comp s'.
Proof.
  intros C X PP. destruct PP as [s' Ev R|s' Ev R|s' Ev R|s' Ev R _].
  - assert (comp (with_peer p (drop_hs now x) s) \/ True) as _ by auto.
    eapply comp_step; [exact C|exact X|exact R| |].
    + intros id O. unfold drop_hs, ix_drop_hs in *. destruct (hs_dead now x).
      * unfold has_id in O. cbn in O. discriminate.
      * eapply ses_take_mine; [exact C|exact X| | |exact O]; reflexivity.
    + intros id q N E. unfold drop_hs, ix_drop_hs in *. destruct (hs_dead now x).
      * pose proof (hs_take_others s p x id q C X N E) as E1.
        unfold ix_ses_take. cbn [p_session set_handshake p_handshake].
        destruct (p_session x) as [u|] eqn:U; auto. unfold ix_drop. cbn [hs_has_id ikey_eqb].
        destruct (bytes_eqb_spec id (se_sidm u)) as [->|]; auto.
        rewrite (C p x _ X (has_ses _ _ _ U eq_refl)) in E. congruence.
      * eapply ses_take_others; eauto.
  - eapply comp_drop_hs; [exact C|exact X| | |exact R]; reflexivity.
  - eapply comp_step; [exact C|exact X|exact R| |].
    + intros id O. assert (has_id id (drop_hs now x) = true) as O1.
      { unfold retried in O. destruct (p_handshake (drop_hs now x)) as [h|] eqn:Hh; auto.
        apply has_id_owns in O. apply has_id_owns. destruct O as [(w & V & E)|(w & V & E)]; cbn in V;
        [left; eauto|injection V as <-; right; eauto]. }
      unfold drop_hs, ix_drop_hs in *. destruct (hs_dead now x).
      * eapply hs_take_mine; [exact C|exact X| | |exact O1]; reflexivity.
      * eapply C; eauto.
    + intros id q N E. unfold ix_drop_hs. destruct (hs_dead now x); auto.
      eapply hs_take_others; eauto.
  - assert (forall id, ix_drop_known now (ix_drop_hs now (ix s) x) (drop_hs now x) (KSid id)
                       = ix_drop_hs now (ix s) x (KSid id)) as EI.
    { intros id. unfold ix_drop_known, ix_known_rm. destruct (known_dead _ _); auto.
      destruct (p_known _); auto. }
    assert (forall id, has_id id (drop_known now (drop_hs now x)) = has_id id (drop_hs now x)) as EH.
    { apply has_id_eq; unfold drop_known; now destruct (known_dead _ _). }
    eapply comp_step; [exact C|exact X|exact R| |]; intros id; rewrite EI.
    + rewrite EH. unfold drop_hs, ix_drop_hs. destruct (hs_dead now x); intros O.
      * eapply hs_take_mine; [exact C|exact X| | |exact O]; reflexivity.
      * eapply C; eauto.
    + intros q N E. unfold ix_drop_hs. destruct (hs_dead now x); auto.
      eapply hs_take_others; eauto.
Qed.

(** The drawn session id of an initiation differs from the one of the peer's running
    initiator handshake. *)
Definition fresh_draw (c : call) (s : srv) : Prop :=
  match c_op c with
  | OInitiate p _ => forall x h, nth_error (s_peers s) p = Some x -> p_handshake x = Some h ->
                       hc_sidi (hs_cor h) <> c_sid (c_coins c)
  | _ => True
  end.

Lemma some_inj {A} (a b : A) : Some a = Some b -> a = b.
Proof. congruence. Qed.

Lemma comp_sys c s s' r :
  inv P s -> fresh_draw c s -> step P c s s' r -> comp s -> comp s'.
Proof.
  intros I F S C. unfold fresh_draw in F.
  destruct S as [psk pk a ds Eo E|psk pk a ds Eo E|p tx q Eo N E|p tx x s1 Eo X Fr R
    |rx tx s1 r Eo M|rx tx host s1 r Eo M|s1 r Eo Ps|p tx r Eo N|p r Eo N]; auto.
  - intros q x id. unfold pe, ix. cbn [s_peers s_index set_peers set_index].
    rewrite idx_get_set. cbn [ikey_eqb]. intros X O.
    destruct (Nat.lt_ge_cases q (npeers s)) as [L|L].
    + rewrite nth_error_app1 in X by exact L. eapply C; eauto.
    + rewrite nth_error_app2 in X by exact L. unfold npeers in L.
      destruct (q - length (s_peers s)) as [|n]; cbn in X; [|now destruct n].
      injection X as <-. discriminate.
  - rewrite Eo in F. eapply comp_step; [exact C|exact X|exact R| |].
    + intros id O. apply has_id_owns in O.
      assert (ix_add (ix s) (c_sid (c_coins c)) p (KSid id) = Some p) as A.
      { unfold ix_add. cbn [ikey_eqb].
        destruct (bytes_eqb_spec id (c_sid (c_coins c))) as [->|Ne]; auto.
        destruct O as [(u & U & E)|(u & U & E)].
        - eapply C; [exact X|]. eapply has_ses; [exact U|exact E].
        - apply some_inj in U. subst u. symmetry in E. contradiction. }
      unfold ix_hs_take. destruct (p_handshake x) as [h|] eqn:Hh; auto. unfold ix_drop.
      destruct (ses_has_id (hs_sid h) (p_session x)) eqn:Es; auto. cbn [ikey_eqb].
      destruct (bytes_eqb_spec id (hs_sid h)) as [->|]; auto. exfalso.
      destruct O as [(u & U & E)|(u & U & E)].
      * change (p_session x = Some u) in U. rewrite U in Es. cbn [ses_has_id] in Es.
        rewrite E in Es. now rewrite bytes_eqb_refl in Es.
      * apply some_inj in U. subst u. symmetry in E. now apply (F x h X Hh) in E.
    + intros id q N E.
      assert (ix_add (ix s) (c_sid (c_coins c)) p (KSid id) = Some q) as A.
      { unfold ix_add. cbn [ikey_eqb].
        destruct (bytes_eqb_spec id (c_sid (c_coins c))) as [->|Ne]; auto.
        destruct Fr as [Fr|Fr]; congruence. }
      unfold ix_hs_take. destruct (p_handshake x) as [h|] eqn:Hh; auto. unfold ix_drop.
      destruct (ses_has_id (hs_sid h) (p_session x)) eqn:Es; auto. cbn [ikey_eqb].
      destruct (bytes_eqb_spec id (hs_sid h)) as [->|]; auto.
      rewrite (C p x _ X (has_hs _ _ _ Hh eq_refl)) in E. congruence.
  - eapply comp_msgstep; eauto.
  - assert (comp (fst (cs_choice (c_now c) (c_coins c) s))) as C1.
    { destruct (cs_choice_frame (c_now c) (c_coins c) s) as (_ & _ & _ & _ & _ & E1 & E2 & _).
      eapply comp_frame; eauto. }
    pose proof (g_inv _ _ _ (cs_choice_good P (c_now c) (c_coins c) s I)) as I1.
    destruct M as [e|s' r FT M|s' r FT L CV M|e FT|i l FT L EL CV]; [exact C| | |exact C1|exact C1].
    + exact (comp_msgstep _ _ _ _ _ _ _ I C M).
    + exact (comp_msgstep _ _ _ _ _ _ _ I1 C1 M).
  - destruct (pollstep_pscan P _ _ _ _ _ I Ps) as (s2 & -> & S2).
    assert (comp s2) as C2.
    { eapply (pscan_ind_inv P _ _ comp); [|exact S2|].
      - intros. eapply comp_peerpoll; eauto.
      - destruct (erase_keys_frame (c_now c) (c_coins c) s) as (_ & _ & _ & E1 & E2 & _).
        eapply comp_frame; eauto. }
    exact C2.
Qed.

Lemma comp_initial s : initial s -> comp s.
Proof.
  intros (sk & pk & b0 & b1 & k0 & k1 & hk & ->) p x id. unfold pe, server_new. cbn [s_peers].
  now destruct p.
Qed.

End WithPrims.

(** As long as no initiation draws the session id its peer is already using for a running
    initiator handshake, every live session or handshake is found under its id, by the
    owner. *)
Theorem C06_live_id_is_found : forall P s0 h s,
  initial s0 -> run_if P fresh_draw s0 h s ->
  forall p x id, nth_error (s_peers s) p = Some x -> owns x id ->
  idx_get (KSid id) (s_index s) = Some p.
Proof.
  intros P s0 h s I R p x id X O.
  assert (comp s) as C.
  { eapply (run_if_ind_inv P fresh_draw comp); [|apply initial_inv, I|exact R|now apply comp_initial].
    intros. eapply comp_sys; eauto. }
  apply (C p x id X). now apply has_id_owns.
Qed.
Print Assumptions C06_live_id_is_found.

Theorem C06_ids_not_shared : forall P s0 h s,
  initial s0 -> run_if P fresh_draw s0 h s ->
  forall p q x y id, nth_error (s_peers s) p = Some x -> nth_error (s_peers s) q = Some y ->
  owns x id -> owns y id -> p = q.
Proof.
  intros P s0 h s I R p q x y id X Y Ox Oy.
  pose proof (C06_live_id_is_found P s0 h s I R p x id X Ox) as A.
  pose proof (C06_live_id_is_found P s0 h s I R q y id Y Oy) as B. congruence.
Qed.
Print Assumptions C06_ids_not_shared.

(** Replies are attributed to the owner: a RespHello (type byte 0x82, the initiator's
    session id at offset 8) that completes an exchange is attributed to a peer whose running
    handshake has the session id it carries. *)
Theorem C06_resp_hello_routed : forall P s c rx tx s' p m,
  reachable P s -> valid c s -> c_op c = OMsg rx tx ->
  nth_error rx 0 = Some x82 ->
  exec P c s = (s', Ok (RHandled {| mr_exchanged := Some p; mr_resp := m |})) ->
  exists x h, nth_error (s_peers s) p = Some x /\ p_handshake x = Some h /\
    hc_sidi (hs_cor h) = slice 8 4 rx.
Proof.
  intros P s c rx tx s' p m R V Eo Ty E.
  pose proof (exec_msg_ok P c rx tx s _ _ (reachable_inv P s R) V Eo E) as M.
  assert (first_type rx = Some MRespHello) as FT.
  { destruct rx as [|b l]; [discriminate|]. cbn in Ty. injection Ty as ->. reflexivity. }
  inversion M; subst; try congruence.
  exists x, h. split; [assumption|]. split; [assumption|].
  match goal with H : hs_sid h = _ |- _ => change (hc_sidi (hs_cor h)) with (hs_sid h); rewrite H end.
  unfold parse_rh, env_payload. cbn [rh_sidi]. apply (slice_slice 4 RH_LEN 4 4 rx). unfold RH_LEN. lia.
Qed.
Print Assumptions C06_resp_hello_routed.

(** Without the condition on the drawn id the claim is false of the code: initiating twice
    with the same drawn id first registers the id and then, when the old handshake is
    dropped, removes it again, so that the live handshake cannot be found. *)
Definition c06_again := Demo.mk (secs 2) xaa (OInitiate 0 Demo.tx).
Theorem C06_live_id_is_found_refuted :
  exists s x id, reachable Demo.P s /\ nth_error (s_peers s) 0 = Some x /\ owns x id /\
    idx_get (KSid id) (s_index s) = None.
Proof.
  set (s := fst (exec Demo.P c06_again Demo.A2)).
  assert (reachable Demo.P s) as R.
  { eapply reachable_run with (s := Demo.A2) (h := [(c06_again, snd (exec Demo.P c06_again Demo.A2))]).
    - exists Demo.A0, [(Demo.cA1, snd Demo.rA1); (Demo.cA2, snd Demo.rA2)].
      split; [exact Demo.initA|].
      apply Demo.step; [split; [apply Demo.wf_coin|exact Logic.I]|vm_compute; reflexivity|].
      change (fst Demo.rA1) with Demo.A1. apply Demo.step; [Demo.okv|vm_compute; reflexivity|].
      constructor.
    - apply Demo.step; [Demo.okv|reflexivity|constructor]. }
  assert (exists x h, nth_error (s_peers s) 0 = Some x /\ p_handshake x = Some h /\
    hc_sidi (hs_cor h) = repeat xaa 4) as (x & h & X & H & E).
  { vm_compute. eexists _, _. split; [reflexivity|]. split; reflexivity. }
  exists s, x, (repeat xaa 4). split; [exact R|]. split; [exact X|].
  split; [right; eauto|]. vm_compute. reflexivity.
Qed.
Print Assumptions C06_live_id_is_found_refuted.

(** Non-vacuity: the handshake of the toy servers draws fresh ids, and the id of the
    initiator's session is found. *)
Example C06_nonvacuous :
  run_if Demo.P fresh_draw Demo.A0 Demo.hA Demo.A4 /\
  exists x u, nth_error (s_peers Demo.A4) 0 = Some x /\ p_session x = Some u /\
    idx_get (KSid (se_sidm u)) (s_index Demo.A4) = Some 0.
Proof.
  split.
  - unfold Demo.hA.
    apply Demo.step_if; [split; [apply Demo.wf_coin|exact Logic.I]|exact Logic.I|vm_compute; reflexivity|].
    change (fst Demo.rA1) with Demo.A1.
    apply Demo.step_if; [Demo.okv| |vm_compute; reflexivity|].
    { intros x h X. vm_compute in X. injection X as <-. discriminate. }
    change (fst Demo.rA2) with Demo.A2.
    apply Demo.step_if; [Demo.okv|exact Logic.I|vm_compute; reflexivity|].
    change (fst Demo.rA3) with Demo.A3.
    apply Demo.step_if; [Demo.okv|exact Logic.I|vm_compute; reflexivity|].
    constructor.
  - vm_compute. eexists _, _. split; [reflexivity|]. split; reflexivity.
Qed.

(** * C07 *)

(** Adding a peer succeeds exactly when nobody with that identity is configured; then it
    returns the next position, where the new peer has the given key, pre-shared key, hash
    version and domain separator, and everything else is untouched. *)
Theorem C07_add_peer_succeeds : forall P s c psk pk a ds,
  reachable P s -> c_op c = OAddPeer psk pk a ds ->
  (forall q x, nth_error (s_peers s) q = Some x ->
     peer_id P (p_alg x) (p_spkt x) <> peer_id P a pk) ->
  exists s' y, exec P c s = (s', Ok (RPeer (length (s_peers s)))) /\
    s_peers s' = s_peers s ++ [y] /\
    p_spkt y = pk /\ p_alg y = a /\ p_ds y = ds /\
    p_psk y = match psk with Some k => k | None => zeros 32 end /\
    p_session y = None /\ p_handshake y = None /\
    find_peer s' (peer_id P a pk) = Some (length (s_peers s)) /\
    (forall id, id <> peer_id P a pk -> find_peer s' id = find_peer s id) /\
    (forall id, idx_get (KSid id) (s_index s') = idx_get (KSid id) (s_index s)).
Proof.
  intros P s c psk pk a ds R Eo F. pose proof (reachable_inv P s R) as I.
  unfold exec. rewrite Eo. unfold map_ok, bind. rewrite add_peer_eq.
  destruct (ix s (KPeer (peer_id P a pk))) as [q|] eqn:E.
  { destruct (i_peer1 P s I _ _ E) as (x & X & Hx). now apply F in X. }
  eexists _, _. split; [reflexivity|]. split; [reflexivity|].
  do 6 (split; [reflexivity|]).
  unfold find_peer. cbn [s_index set_peers set_index].
  split; [|split].
  - rewrite idx_get_set. cbn [ikey_eqb]. now rewrite bytes_eqb_refl.
  - intros id N. rewrite idx_get_set. cbn [ikey_eqb]. now rewrite (proj2 (bytes_eqb_neq _ _) N).
  - intros id. now rewrite idx_get_set.
Qed.
Print Assumptions C07_add_peer_succeeds.

Theorem C07_add_peer_duplicate : forall P s c psk pk a ds q x,
  reachable P s -> c_op c = OAddPeer psk pk a ds ->
  nth_error (s_peers s) q = Some x -> peer_id P (p_alg x) (p_spkt x) = peer_id P a pk ->
  exec P c s = (s, Err EPeerExists).
Proof.
  intros P s c psk pk a ds q x R Eo X E. pose proof (reachable_inv P s R) as I.
  unfold exec. rewrite Eo. unfold map_ok, bind. rewrite add_peer_eq.
  pose proof (i_peer2 P s I q x X) as K. unfold pidt in K. rewrite <- E. now rewrite K.
Qed.
Print Assumptions C07_add_peer_duplicate.

(** Hence identities are pairwise distinct in every reachable server. *)
Theorem C07_identities_distinct : forall P s p q x y,
  reachable P s -> nth_error (s_peers s) p = Some x -> nth_error (s_peers s) q = Some y ->
  peer_id P (p_alg x) (p_spkt x) = peer_id P (p_alg y) (p_spkt y) -> p = q.
Proof.
  intros P s p q x y R X Y E. pose proof (reachable_inv P s R) as I.
  pose proof (i_peer2 P s I p x X) as A. pose proof (i_peer2 P s I q y Y) as B.
  unfold pidt in *. rewrite E in A. congruence.
Qed.
Print Assumptions C07_identities_distinct.

(** A peer keeps its configuration and position for ever. *)
Theorem C07_peers_stay : forall P s h s' p x,
  reachable P s -> run P s h s' -> nth_error (s_peers s) p = Some x ->
  exists x', nth_error (s_peers s') p = Some x' /\ p_spkt x' = p_spkt x /\ p_psk x' = p_psk x /\
    p_alg x' = p_alg x /\ p_ds x' = p_ds x.
Proof.
  intros P s h s' p x R Ru X.
  pose proof (run_evo P _ _ _ (reachable_inv P s R) Ru) as V.
  destruct (ev_pe _ _ V p x X) as (x' & X' & W). exists x'. destruct W. auto.
Qed.
Print Assumptions C07_peers_stay.

(** Non-vacuity: adding B to a fresh A succeeds, adding it again is refused. *)
Example C07_nonvacuous :
  snd Demo.rA1 = Ok (RPeer 0) /\ snd (exec Demo.P Demo.cA1 Demo.A1) = Err EPeerExists.
Proof. split; vm_compute; reflexivity. Qed.
