(** C109: when two servers complete an exchange, the keys they hand to their users are the same. *)
From Verif Require Import Base ConstTime Prims HashDomains Wire Server Protocol Wp Inv Rules Calls PollRules System
  Trans Spec Transcript Demo PSafety PReplay PPoll PHandshake Builder PBuilder AppNet AppIo PAppIo App PApp.
Local Open Scope list_scope.

(** * Turns of the application as histories of the engine *)

Lemma run_one P s c s' r : valid c s -> exec P c s = (s', r) -> run P s [(c, r)] s'.
Proof. intros V E. econstructor; eauto. constructor. Qed.

Lemma next_valid u o a s : turn_ok u a ->
  match o with OMsg _ tx | OLoad _ tx _ => tx = u_tx u | OInitiate p tx | ORetransmit p tx => p < length (s_peers s) /\ tx = u_tx u
             | OOsk p => p < length (s_peers s) | _ => True end -> valid (next_call u o) s.
Proof.
  intros (_ & Wc & Wt & _) H. split; [exact Wc|]. cbn [next_call c_op].
  destruct o; auto; try (destruct H as (H & ->); auto); try (rewrite H; auto).
Qed.

Lemma after_recv_product P u a s : appinv P a -> a_site a = Product s -> a_site (after_recv P u a) = Product s.
Proof.
  intros I Es. unfold after_recv. cbn [set_load set_site set_io a_site].
  pose proof (supplies_spec P (u_supply u) (a_site a) (ai_reach P a I)) as S.
  destruct (supplies P (u_supply u) (a_site a)) as [c b]. cbn [fst]. destruct S as (_ & _ & _ & F).
  rewrite (F s Es). exact Es.
Qed.

(** The calls recorded in a turn are what happened to the engine. *)
Lemma turn_engine P u a a' cs t r s : appinv P a -> turn_ok u a -> a_site a = Product s ->
  app_turn P u a = (a', cs, t, r) -> exists s', a_site a' = Product s' /\ run P s cs s'.
Proof.
  intros I W Es E. pose proof (turn_view P u a a' cs t r I W E) as V. clear E.
  assert (valid (poll_call u) s) as Vp by exact (conj (proj1 W) Logic.I).
  destruct V as [p q o s0 s1 a1 cs1 t1 r1 Es0 Ex Hq Et|p s0 s1 a1 t1 r1 Es0 Ex Ed|a0 cs0 r0 H0 Hn Hf Ht Hdg|a0 cs0 s2 rx sock from a1 cs1 t1 r1 H0 Hn Hr Hs2 Ev].
  - assert (s0 = s) as -> by congruence.
    destruct (poll_result P s (poll_call u) s1 _ (ai_reach P a I s Es) Vp eq_refl Ex) as (R1 & N1 & q' & [= <-] & B).
    pose proof (appinv_site P a s s1 I Es R1 N1) as I1.
    assert (p < npeers s) as Hp by (destruct Hq as [(-> & _)|(-> & _)]; exact B).
    assert (length (s_peers s1) = length (a_peers a)) as L1 by (apply (ai_count P _ I1); reflexivity).
    assert (p < length (s_peers s1)) as Hp1 by (unfold npeers in *; congruence).
    destruct (tx_spec P u p o s1 (set_site (Product s1) a) a1 cs1 t1 r1 R1 L1 eq_refl W Hp1) as (x & X & K).
    { destruct Hq as [(_ & ->)|(_ & ->)]; auto. } { exact Et. }
    destruct K as [(_ & -> & -> & _ & _)|(e & s' & q' & _ & Ex' & -> & _ & _ & Es' & _)].
    + exists s1. split; [reflexivity|]. now apply run_one.
    + exists s'. split; [exact Es'|]. econstructor; [exact Vp|exact Ex|]. apply run_one; [|exact Ex'].
      eapply next_valid; [exact W|]. destruct Hq as [(_ & ->)|(_ & ->)]; auto.
  - assert (s0 = s) as -> by congruence. exists s1. split; [|now apply run_one].
    unfold delete_key in Ed. destruct (output_key P u p Stale (u_random u) s1 _) as [t2 [v|e|]];
      try (injection Ed as <- _ _; reflexivity).
    destruct (nth_error _ p); injection Ed as <- _ _; reflexivity.
  - destruct H0 as [(s0 & s1 & d & Es0 & Ex & -> & ->)|(N & _)]; [|now elim (N s)].
    assert (s0 = s) as -> by congruence. exists s1. split; [|now apply run_one].
    apply after_recv_product; [|reflexivity].
    destruct (poll_result P s (poll_call u) s1 _ (ai_reach P a I s Es) Vp eq_refl Ex) as (R1 & N1 & _).
    eapply appinv_site; eauto.
  - pose proof (before_recv P u a a0 cs0 I W H0) as (I0 & Ei & _).
    destruct H0 as [(s0 & s1 & d & Es0 & Ex & -> & ->)|(N & _)]; [|now elim (N s)].
    assert (s0 = s) as -> by congruence.
    rewrite (after_recv_product P u _ s1 I0 eq_refl) in Hs2. injection Hs2 as <-.
    pose proof (after_recv_inv P u _ I0) as I2.
    assert (a_site (after_recv P u (set_site (Product s1) a)) = Product s1) as Hs2
      by (apply after_recv_product; [exact I0|reflexivity]).
    destruct W as (Wp & Wc & Wt & Ws). pose proof Ws as Ws'. rewrite Hr in Ws.
    assert (sock < io_sockets (a_io (after_recv P u (set_site (Product s1) a)))) as Hs.
    { unfold after_recv. cbn [set_load set_site set_io a_io]. pose proof (ops_sockets (u_ops u) (a_io a)). lia. }
    assert (length (s_peers s1) = length (a_peers (after_recv P u (set_site (Product s1) a)))) as L2
      by (apply (ai_count P _ I2); rewrite Hs2; reflexivity).
    destruct (receive_spec P u rx sock from s1 _ a1 cs1 t1 r1 (ai_reach P _ I2 s1 Hs2) L2 Hs2 Wc Wt Hs Ev)
      as (s' & q & Ex' & R' & L' & Es' & Ei' & _ & K).
    exists s'. split; [exact Es'|]. cbn [List.app]. econstructor; [exact Vp|exact Ex|].
    set (c := next_call u _) in *.
    assert (valid c s1) as Vc.
    { apply (next_valid u _ a s1 (conj Wp (conj Wc (conj Wt Ws')))). unfold msg_op. destruct (a_under_load _); reflexivity. }
    destruct K as [(e & -> & -> & _)|(h & -> & [(m & _ & _ & -> & _)|(t2 & _ & [(_ & -> & _)|(p & x & k & t3 & _ & Hp & _ & Hk & -> & _)])])];
      try (now apply run_one).
    econstructor; [exact Vc|exact Ex'|].
    assert (valid (next_call u (OOsk p)) s') as Vk by exact (conj Wc Hp).
    apply run_one; [exact Vk|]. apply Hk; [exact Vk|reflexivity].
Qed.

Lemma add_engine P pp f b host a a' r s : a_site a = Product s -> app_add_peer P pp f b host a = (a', r) ->
  exists h s', a_site a' = Product s' /\ run P s h s'.
Proof.
  intros Es E. unfold app_add_peer in E. rewrite Es in E. cbn [site_add_peer] in E.
  pose (c := {| c_now := 0%Z; c_coins := Demo.coin x00; c_op := OAddPeer (pp_psk pp) (pp_pk pp) (pp_alg pp) (pp_ds pp) |}).
  assert (valid c s) as V by (split; [apply Demo.wf_coin|exact Logic.I]).
  destruct (add_peer P (pp_psk pp) (pp_pk pp) (pp_alg pp) (pp_ds pp) s) as [s' q] eqn:A.
  assert (exists q', exec P c s = (s', q')) as (q' & X).
  { unfold exec, c. cbn [c_op]. unfold map_ok, bind. rewrite A. destruct q; eexists; reflexivity. }
  exists [(c, q')], s'. split; [|now apply run_one].
  destruct q as [n|e|]; [|injection E as <- _; reflexivity|injection E as <- _; reflexivity].
  destruct (negb _); [injection E as <- _; reflexivity|]. destruct host as [[l|]|]; injection E as <- _; reflexivity.
Qed.

Lemma run_engine P a h a' : app_run P a h a' -> (forall o r, In (o, r) h -> ~ lookup_fails o) -> appinv P a ->
  forall s, a_site a = Product s -> exists g s', a_site a' = Product s' /\ run P s g s'.
Proof.
  induction 1 as [a|a o a1 r h a2 V E NP R IH]; intros NL I s Es; [exists [], s; split; [exact Es|constructor]|].
  assert (exists g s1, a_site a1 = Product s1 /\ run P s g s1) as (g & s1 & Es1 & R1).
  { destruct o as [pp f b host|u]; cbn [app_exec] in E.
    - destruct (app_add_peer P pp f b host a) as [a3 r1] eqn:A. injection E as <- <-. eapply add_engine; eauto.
    - destruct (app_turn P u a) as [[[a3 cs] t] r1] eqn:T. injection E as <- <-.
      destruct (turn_engine P u a a3 cs t r1 s I V Es T) as (s' & Es' & Rn). eauto. }
  destruct (IH (fun o' r' H => NL o' r' (or_intror H)) (exec_appinv P o a a1 r I V (NL o r (or_introl eq_refl)) E) s1 Es1)
    as (g2 & s2 & Es2 & R2).
  exists (g ++ g2), s2. split; [exact Es2|]. eapply run_app; eauto.
Qed.

Lemma settled_run P a h a' : settled P a -> app_run P a h a' -> (forall o r, In (o, r) h -> ~ lookup_fails o) -> settled P a'.
Proof.
  intros (kp & d & n & h0 & R0 & N0) R N. exists kp, d, n, (h0 ++ h). split.
  - clear N0 N. induction R0 as [|a0 o a1 r0 g a2 V E NP R0 IH]; [exact R|]. cbn [List.app]. econstructor; eauto.
  - intros o r H. apply in_app_iff in H. destruct H; eauto.
Qed.

(** * What a turn does with the engine *)

(** The engine's state after the [poll] with which the turn starts. *)
Definition polled (P : prims) (u : turn) (a : app) (s : srv) : Prop :=
  exists s0 q, a_site a = Product s0 /\ exec P (poll_call u) s0 = (s, Ok (RPolled q)).

Lemma polled_run P u a s : turn_ok u a -> polled P u a s -> exists s0 h, a_site a = Product s0 /\ run P s0 h s.
Proof.
  intros W (s0 & q & Es & E). eexists s0, _. split; [exact Es|]. apply run_one; [|exact E]. exact (conj (proj1 W) Logic.I).
Qed.

(** What can be sent in a turn without error, and which calls are made. *)
Lemma turn_parts P u a a' cs t s : appinv P a -> turn_ok u a -> app_turn P u a = (a', cs, t, Ok false) -> polled P u a s ->
  (exists q, cs = [(poll_call u, q)]) \/
  (exists q o m s', (exists p, o = OInitiate p (u_tx u) \/ o = ORetransmit p (u_tx u)) /\
     cs = [(poll_call u, q); (next_call u o, Ok (RSent m))] /\ valid (next_call u o) s /\
     exec P (next_call u o) s = (s', Ok (RSent m)) /\ a_site a' = Product s' /\
     forall so to m', In (Sent so to m') t -> m' = m) \/
  (exists q q' rx sock from s' cs',
     let c := next_call u (msg_op u (u_load u) rx sock from) in
     u_recv u = RDatagram rx sock from /\ cs = (poll_call u, q) :: (c, q') :: cs' /\
     (forall c' x', In (c', x') cs' -> exists p, c' = next_call u (OOsk p)) /\
     valid c s /\ exec P c s = (s', q') /\ a_site a' = Product s' /\
     ((exists e, q' = Err e) /\ t = [] \/
      exists h, q' = Ok (RHandled h) /\ exists t1 t2, t = t1 ++ t2 /\
        (mr_resp h = None /\ t1 = [] \/ exists m, mr_resp h = Some m /\ t1 = [Sent sock from m]) /\
        (mr_exchanged h = None /\ t2 = [] \/
         exists p x sp k, mr_exchanged h = Some p /\ nth_error (a_peers a) p = Some x /\ nth_error (s_peers s') p = Some sp /\
           key_at P s' p k /\ t2 = delivery x p (pidt P sp) Exchanged k))).
Proof.
  intros I W E (s0 & q0 & Es & Ep0). pose proof (turn_view P u a a' cs t _ I W E) as V. clear E. remember (Ok false) as fin eqn:Fin.
  assert (valid (poll_call u) s0) as Vp by exact (conj (proj1 W) Logic.I).
  destruct V as [p q o s1 s2 a1 cs1 t1 r1 Es1 Ex Hq Et|p s1 s2 a1 t1 r1 Es1 Ex Ed|a0 cs0 r0 H0 Hn Hf Ht Hdg|a0 cs0 s2 rx sock from a1 cs1 t1 r1 H0 Hn Hr Hs2 Ev].
  - assert (s1 = s0) as -> by congruence. assert (s2 = s) as -> by congruence. clear Ep0.
    destruct (poll_result P s0 (poll_call u) s _ (ai_reach P a I s0 Es) Vp eq_refl Ex) as (R1 & N1 & q' & [= <-] & B).
    pose proof (appinv_site P a s0 s I Es R1 N1) as I1.
    assert (p < npeers s0) as Hp by (destruct Hq as [(-> & _)|(-> & _)]; exact B).
    assert (length (s_peers s) = length (a_peers a)) as L1 by (apply (ai_count P _ I1); reflexivity).
    assert (p < length (s_peers s)) as Hp1 by (unfold npeers in *; congruence).
    destruct (tx_spec P u p o s (set_site (Product s) a) a1 cs1 t1 r1 R1 L1 eq_refl W Hp1) as (x & X & K).
    { destruct Hq as [(_ & ->)|(_ & ->)]; auto. } { exact Et. }
    destruct K as [(_ & -> & -> & _ & _)|(e & s' & q' & _ & Ex' & -> & _ & _ & Es' & _ & _ & K)]; [left; eauto|].
    right. left. destruct K as [(er & -> & _ & -> & _)|(m & e' & -> & F & _)]; [discriminate|].
    exists (Ok (RPolled q)), o, m, s'. split; [exists p; destruct Hq as [(_ & ->)|(_ & ->)]; auto|].
    split; [reflexivity|]. split; [eapply next_valid; [exact W|]; destruct Hq as [(_ & ->)|(_ & ->)]; auto|].
    split; [exact Ex'|]. split; [exact Es'|]. intros so to m' Hin.
    pose proof (ep_send_spec (u_sends u) (io_sockets (a_io (set_site (Product s) a))) m e) as S. rewrite F in S.
    destruct S as (_ & S & _). destruct (S _ Hin) as (? & ? & H & _). congruence.
  - left. eauto.
  - left. destruct H0 as [(s1 & s2 & d & Es0 & Ex & -> & ->)|(N & _)]; [|now elim (N s0)]. eauto.
  - pose proof (before_recv P u a a0 cs0 I W H0) as (I0 & Ei & Epe).
    destruct H0 as [(s1 & s3 & d & Es0 & Ex & -> & ->)|(N & _)]; [|now elim (N s0)].
    assert (s1 = s0) as -> by congruence. assert (s3 = s) as -> by congruence. clear Ep0.
    rewrite (after_recv_product P u _ s I0 eq_refl) in Hs2. injection Hs2 as <-.
    pose proof (after_recv_inv P u _ I0) as I2.
    assert (a_site (after_recv P u (set_site (Product s) a)) = Product s) as Hs2
      by (apply after_recv_product; [exact I0|reflexivity]).
    destruct W as (Wp & Wc & Wt & Ws). pose proof Ws as Ws'. rewrite Hr in Ws.
    assert (sock < io_sockets (a_io (after_recv P u (set_site (Product s) a)))) as Hs.
    { unfold after_recv. cbn [set_load set_site set_io a_io]. pose proof (ops_sockets (u_ops u) (a_io a)). lia. }
    assert (length (s_peers s) = length (a_peers (after_recv P u (set_site (Product s) a)))) as L2
      by (apply (ai_count P _ I2); rewrite Hs2; reflexivity).
    destruct (receive_spec P u rx sock from s _ a1 cs1 t1 r1 (ai_reach P _ I2 s Hs2) L2 Hs2 Wc Wt Hs Ev)
      as (s' & q & Ex' & R' & L' & Es' & Ei' & _ & K).
    change (a_under_load (after_recv P u (set_site (Product s) a))) with (u_load u) in *.
    right. right. cbn [List.app]. set (c := next_call u (msg_op u (u_load u) rx sock from)) in *.
    assert (valid c s) as Vc.
    { apply (next_valid u _ a s (conj Wp (conj Wc (conj Wt Ws')))). unfold msg_op. destruct (u_load u); reflexivity. }
    assert (forall c' (x' : res err outcome), In (c', x') [] -> exists p, c' = next_call u (OOsk p)) as Nil by (intros c' x' []).
    destruct K as [(e & -> & -> & -> & _)|(h & -> & K)].
    { do 6 eexists. exists []. cbv zeta. fold c. split; [exact Hr|]. split; [reflexivity|]. split; [exact Nil|]. split; [exact Vc|].
      split; [exact Ex'|]. split; [exact Es'|]. left. split; eauto. }
    destruct K as [(m & _ & _ & -> & _ & -> & _)|(t2 & Ht2 & K)]; [discriminate|].
    assert (mr_resp h = None /\ t2 = [] \/ exists m, mr_resp h = Some m /\ t2 = [Sent sock from m]) as Ht2'.
    { destruct Ht2 as [H|(m & H1 & _ & H2)]; eauto. }
    destruct K as [(Nx & -> & -> & _)|(p & x & k & t3 & Nx & Hp & X & Hk & -> & Ea & O & ->)].
    { do 6 eexists. exists []. cbv zeta. fold c. split; [exact Hr|]. split; [reflexivity|]. split; [exact Nil|]. split; [exact Vc|].
      split; [exact Ex'|]. split; [exact Es'|]. right. exists h. split; [reflexivity|]. exists t2, []. split; [now rewrite app_nil_r|].
      split; [exact Ht2'|]. left. auto. }
    do 6 eexists. eexists. cbv zeta. fold c. split; [exact Hr|]. split; [reflexivity|].
    split; [intros c' x' [H|[]]; exists p; congruence|]. split; [exact Vc|].
    split; [exact Ex'|]. split; [exact Es'|]. right. exists h. split; [reflexivity|]. exists t2, t3. split; [reflexivity|].
    split; [exact Ht2'|]. right.
    assert (length (s_peers s') = length (a_peers a1)) as L3.
    { rewrite L', L2, Ea. now rewrite upd_length. }
    destruct (output_spec P u p Exchanged k s' a1 t3 r1 Hp L3 O) as (sp & x' & Sp & X' & _ & Q & _).
    exists p, x, sp, k. split; [exact Nx|].
    assert (r1 = Ok tt) as Hr1 by (destruct r1 as [[]| |]; try discriminate; reflexivity).
    rewrite Ea, nth_error_upd_eq in X' by (apply nth_error_Some; congruence). injection X' as <-.
    split; [exact X|]. split; [exact Sp|]. split; [exact Hk|]. rewrite (Q Hr1). reflexivity.
Qed.


(** A turn of [a] without error, in which the engine was called with [o] in the state [s]. *)
Definition turns (P : prims) (a : app) (u : turn) (a' : app) (t : list effect) (s : srv) (o : op) : Prop :=
  turn_ok u a /\ polled P u a s /\ exists cs r, app_turn P u a = (a', cs, t, Ok false) /\ In (next_call u o, r) cs.

Lemma turns_msg P a u a' t s rx : settled P a -> turns P a u a' t s (OMsg rx (u_tx u)) ->
  let c := next_call u (OMsg rx (u_tx u)) in
  exists s' q sock from, u_recv u = RDatagram rx sock from /\ valid c s /\ exec P c s = (s', q) /\ a_site a' = Product s' /\
    (forall so to m, In (Sent so to m) t -> message q = m) /\
    forall h, q = Ok (RHandled h) -> exists t1 t2, t = t1 ++ t2 /\
        (mr_resp h = None /\ t1 = [] \/ exists m, mr_resp h = Some m /\ t1 = [Sent sock from m]) /\
        (mr_exchanged h = None /\ t2 = [] \/
         exists p x sp k, mr_exchanged h = Some p /\ nth_error (a_peers a) p = Some x /\ nth_error (s_peers s') p = Some sp /\
           key_at P s' p k /\ t2 = delivery x p (pidt P sp) Exchanged k).
Proof.
  intros S (W & Po & cs & r & E & Hin). pose proof (settled_inv P a S) as I. cbv zeta.
  assert (forall q, (poll_call u, q) = (next_call u (OMsg rx (u_tx u)), r) -> False) as NP.
  { intros q H. apply (f_equal fst), (f_equal c_op) in H. discriminate H. }
  destruct (turn_parts P u a a' cs t s I W E Po) as [(q & ->)|[(q & o & m & s' & (p & Ho) & -> & _)|(q & q' & rx' & sock & from & s' & cs' & Hr & -> & Hcs & V & Ex & Es & K)]].
  - destruct Hin as [H|[]]. now elim (NP q).
  - destruct Hin as [H|[H|[]]]; [now elim (NP q)|]. apply (f_equal fst), (f_equal c_op) in H.
    cbn [fst next_call c_op] in H. destruct Ho; congruence.
  - assert (next_call u (msg_op u (u_load u) rx' sock from) = next_call u (OMsg rx (u_tx u))) as Ec.
    { destruct Hin as [H|[H|H]]; [now elim (NP q)|congruence|]. destruct (Hcs _ _ H) as (p & Hc). apply (f_equal c_op) in Hc. discriminate Hc. }
    assert (rx' = rx) as ->.
    { apply (f_equal c_op) in Ec. cbn [next_call c_op] in Ec. unfold msg_op in Ec. destruct (u_load u); [discriminate|congruence]. }
    rewrite Ec in *. exists s', q', sock, from. repeat (split; [assumption|]).
    split; [|intros h ->; destruct K as [((e & K) & _)|(h' & K & K')]; [discriminate|]; assert (h' = h) as -> by congruence; exact K'].
    intros so to m Hs. destruct K as [(_ & ->)|(h & -> & t1 & t2 & -> & H1 & H2)]; [destruct Hs|].
    apply in_app_iff in Hs. destruct Hs as [Hs|Hs].
    + destruct H1 as [(_ & ->)|(m' & E1 & ->)]; [destruct Hs|]. destruct Hs as [H|[]]. destruct h as [ex rs]. cbn [mr_resp] in E1. subst rs.
      cbn [message]. congruence.
    + exfalso. destruct H2 as [(_ & ->)|(p & x & sp & k & _ & _ & _ & _ & ->)]; [destruct Hs|].
      exact (no_sent_in_delivery _ _ _ _ _ _ Hs).
Qed.

Lemma turns_initiate P a u a' t s p : settled P a -> turns P a u a' t s (OInitiate p (u_tx u)) ->
  let c := next_call u (OInitiate p (u_tx u)) in
  exists s' q, valid c s /\ exec P c s = (s', q) /\ a_site a' = Product s' /\
    forall so to m, In (Sent so to m) t -> q = Ok (RSent m).
Proof.
  intros S (W & Po & cs & r & E & Hin). pose proof (settled_inv P a S) as I. cbv zeta.
  assert (forall q, (poll_call u, q) = (next_call u (OInitiate p (u_tx u)), r) -> False) as NP.
  { intros q H. apply (f_equal fst), (f_equal c_op) in H. discriminate H. }
  destruct (turn_parts P u a a' cs t s I W E Po) as [(q & ->)|[(q & o & m & s' & (p' & Ho) & -> & V & Ex & Es & K)|(q & q' & rx' & sock & from & s' & cs' & Hr & -> & Hcs & V & Ex & Es & K)]].
  - destruct Hin as [H|[]]. now elim (NP q).
  - destruct Hin as [H|[H|[]]]; [now elim (NP q)|]. assert (next_call u o = next_call u (OInitiate p (u_tx u))) as Ec by congruence.
    rewrite Ec in *. exists s', (Ok (RSent m)). repeat (split; [assumption|]). intros so to m' Hs. now rewrite (K _ _ _ Hs).
  - exfalso. destruct Hin as [H|[H|H]]; [now elim (NP q)| |].
    + apply (f_equal fst), (f_equal c_op) in H. cbn [fst next_call c_op] in H. unfold msg_op in H. destruct (u_load u); discriminate H.
    + destruct (Hcs _ _ H) as (p0 & Hc). apply (f_equal c_op) in Hc. discriminate Hc.
Qed.

Lemma key_at_unique P s p k k' : p < length (s_peers s) -> key_at P s p k -> key_at P s p k' -> k = k'.
Proof.
  intros Hp K K'.
  pose (c := {| c_now := 0%Z; c_coins := Demo.coin x00; c_op := OOsk p |}).
  assert (valid c s) as V by (split; [apply Demo.wf_coin|exact Hp]).
  pose proof (K c V eq_refl) as A. pose proof (K' c V eq_refl) as B. congruence.
Qed.

(** The application goes on, and host names are resolved. *)
Definition goes_on (P : prims) (a a' : app) : Prop :=
  exists h, app_run P a h a' /\ forall o r, In (o, r) h -> ~ lookup_fails o.

Lemma turns_step P a u a' t s o : settled P a -> turns P a u a' t s o -> settled P a'.
Proof.
  intros S (W & _ & cs & r & E & _). eapply (settled_run P a [(PTurn u, Turned cs t (Ok false))] a' S).
  - econstructor; [exact W|cbn [app_exec]; rewrite E; reflexivity|reflexivity|constructor].
  - intros o' r' [H|[]]. assert (o' = PTurn u) as -> by congruence. intros [].
Qed.
Lemma goes_on_settled P a a' : settled P a -> goes_on P a a' -> settled P a'.
Proof. intros S (h & R & N). eapply settled_run; eauto. Qed.
Lemma goes_on_run P a a' u t s o a'' s0 : settled P a -> goes_on P a a' -> turns P a' u a'' t s o -> a_site a = Product s0 ->
  exists h, run P s0 h s.
Proof.
  intros S (h & R & N) (W & Po & _) Es. destruct (run_engine P a h a' R N (settled_inv P a S) s0 Es) as (g & s1 & Es1 & R1).
  destruct (polled_run P u a' s W Po) as (s2 & h2 & Es2 & R2). assert (s2 = s1) as -> by congruence.
  exists (g ++ h2). eapply run_app; eauto.
Qed.
Lemma turns_reachable P a u a' t s o : settled P a -> turns P a u a' t s o -> reachable P s.
Proof.
  intros S (W & Po & _). destruct (polled_run P u a s W Po) as (s0 & h & Es & R).
  eapply reachable_run; [|exact R]. exact (ai_reach P a (settled_inv P a S) s0 Es).
Qed.

(** * C109 *)

(** Two servers, each in any state it can get to, with peers configured for each other.  The first starts
    an exchange with the second, and the four datagrams they send each other arrive, unchanged, with anything
    happening in between that does not end the exchange (the conditions of C01).  Then each of them writes a
    key to the file of its peer, announces it, and hands it to the broker of the peer, as far as the peer has
    these, and it is the same key; the lines name the other server.  Nothing else is written or handed over in
    these turns, and nothing is sent except the answers, to where the datagrams came from. *)
Theorem C109_same_key_at_both_ends : forall P aA aB pA pB
    uA1 aA1 tA1 sA sA1 so1 to1 m1   uB1 aB1 tB1 sB sB1 so2 to2 m2
    aA2 uA2 aA3 tA2 sA2 sA3 so3 to3 m3   aB2 uB2 aB3 tB2 sB2 so4 to4 m4   aA4 uA3 aA5 tA3 sA4,
  correct P -> settled P aA -> settled P aB -> genuine P sA -> genuine P sB -> configured sA pA sB pB ->
  (* A initiates, with a session id that is not in use *)
  turns P aA uA1 aA1 tA1 sA (OInitiate pA (u_tx uA1)) -> In (Sent so1 to1 m1) tA1 -> a_site aA1 = Product sA1 ->
  sid_unused sA (c_sid (snd (u_call uA1))) ->
  (* B gets the InitHello; in the old protocol version it must not be valid in the new one too *)
  turns P aB uB1 aB1 tB1 sB (OMsg m1 (u_tx uB1)) -> In (Sent so2 to2 m2) tB1 -> a_site aB1 = Product sB1 ->
  (version sB pB Blake -> forall pid pk psk, ~ hello_authentic P sB Shake m1 pid pk psk) ->
  (* A gets the RespHello while the handshake is pending *)
  goes_on P aA1 aA2 -> turns P aA2 uA2 aA3 tA2 sA2 (OMsg m2 (u_tx uA2)) -> In (Sent so3 to3 m3) tA2 ->
  a_site aA3 = Product sA3 -> still_pending sA1 sA2 pA ->
  (* B gets the InitConf while it has the biscuit key and has not used the biscuit or a later one *)
  goes_on P aB1 aB2 -> turns P aB2 uB2 aB3 tB2 sB2 (OMsg m3 (u_tx uB2)) -> In (Sent so4 to4 m4) tB2 ->
  named_key sB2 (resp_biscuit m2) = named_key sB1 (resp_biscuit m2) ->
  (last_used sB2 pB < le_dec (s_bctr sB))%N ->
  (forall q, idx_get (KSid (c_sid (snd (u_call uB1)))) (s_index sB2) = Some q -> q = pB) ->
  idx_get (KKnown (known_hash P sB2 m3)) (s_index sB2) = None ->
  (version sB pB Blake -> forall pt, ~ biscuit_opens P Shake (s_spkm sB2)
     (named_key sB2 (resp_biscuit m2)) (conf_sidi m3) (conf_sidr m3) (resp_biscuit m2) pt) ->
  (* A gets the EmptyData *)
  goes_on P aA3 aA4 -> turns P aA4 uA3 aA5 tA3 sA4 (OMsg m4 (u_tx uA3)) ->
  still_pending sA3 sA4 pA -> same_session sA3 sA4 pA ->
  exists k xA xB v from1 from2 from3 from4 so1' so2' so3' so4',
    nth_error (a_peers aA2) pA = Some xA /\ nth_error (a_peers aB2) pB = Some xB /\
    u_recv uB1 = RDatagram m1 so1' from1 /\ tB1 = [Sent so1' from1 m2] /\
    u_recv uA2 = RDatagram m2 so2' from2 /\ tA2 = Sent so2' from2 m3 :: delivery xA pA (peer_id P v (s_spkm sB)) Exchanged k /\
    u_recv uB2 = RDatagram m3 so3' from3 /\ tB2 = Sent so3' from3 m4 :: delivery xB pB (peer_id P v (s_spkm sA)) Exchanged k /\
    u_recv uA3 = RDatagram m4 so4' from4 /\ tA3 = [].
Proof.
  intros P aA aB pA pB uA1 aA1 tA1 sA sA1 so1 to1 m1 uB1 aB1 tB1 sB sB1 so2 to2 m2
    aA2 uA2 aA3 tA2 sA2 sA3 so3 to3 m3 aB2 uB2 aB3 tB2 sB2 so4 to4 m4 aA4 uA3 aA5 tA3 sA4
    C SA SB GA GB Cf T1 F1 Es1 U1 T2 F2 Es2 N2 G1 T3 F3 Es3 SP1 G2 T4 F4 NK LU SI KH N4 G3 T5 SP2 SS.
  pose proof (turns_reachable P aA uA1 aA1 tA1 sA _ SA T1) as RA.
  pose proof (turns_reachable P aB uB1 aB1 tB1 sB _ SB T2) as RB.
  pose proof (turns_step P aA uA1 aA1 tA1 sA _ SA T1) as SA1.
  pose proof (turns_step P aB uB1 aB1 tB1 sB _ SB T2) as SB1.
  pose proof (goes_on_settled P aA1 aA2 SA1 G1) as SA2. pose proof (goes_on_settled P aB1 aB2 SB1 G2) as SB2.
  pose proof (turns_step P aA2 uA2 aA3 tA2 sA2 _ SA2 T3) as SA3.
  pose proof (goes_on_settled P aA3 aA4 SA3 G3) as SA4.
  destruct (goes_on_run P aA1 aA2 uA2 tA2 sA2 _ aA3 sA1 SA1 G1 T3 Es1) as (hA & Rn1).
  destruct (goes_on_run P aB1 aB2 uB2 tB2 sB2 _ aB3 sB1 SB1 G2 T4 Es2) as (hB & Rn2).
  destruct (goes_on_run P aA3 aA4 uA3 tA3 sA4 _ aA5 sA3 SA3 G3 T5 Es3) as (hA' & Rn3).
  destruct (turns_initiate P aA uA1 aA1 tA1 sA pA SA T1) as (s1 & r1 & V1 & E1 & Es1' & K1).
  assert (s1 = sA1) as -> by congruence. pose proof (K1 _ _ _ F1) as Er1. clear K1.
  destruct (turns_msg P aB uB1 aB1 tB1 sB m1 SB T2) as (s2 & r2 & so1' & from1 & D1 & V2 & E2 & Es2' & J2 & K2).
  assert (s2 = sB1) as -> by congruence.
  destruct (turns_msg P aA2 uA2 aA3 tA2 sA2 m2 SA2 T3) as (s3 & r3 & so2' & from2 & D2 & V3 & E3 & Es3' & J3 & K3).
  assert (s3 = sA3) as -> by congruence.
  destruct (turns_msg P aB2 uB2 aB3 tB2 sB2 m3 SB2 T4) as (sB3 & r4 & so3' & from3 & D3 & V4 & E4 & Es4' & J4 & K4).
  destruct (turns_msg P aA4 uA3 aA5 tA3 sA4 m4 SA4 T5) as (sA5 & r5 & so4' & from4 & D4 & V5 & E5 & Es5' & J5 & K5).
  pose proof (J2 _ _ _ F2) as M2. pose proof (J3 _ _ _ F3) as M3. pose proof (J4 _ _ _ F4) as M4.
  assert (message r1 = m1) as M1 by now rewrite Er1.
  destruct (C01_honest_handshake P sA sB pA pB (next_call uA1 (OInitiate pA (u_tx uA1))) (u_tx uA1) sA1 r1
     (next_call uB1 (OMsg m1 (u_tx uB1))) (u_tx uB1) sB1 r2 hA sA2 (next_call uA2 (OMsg m2 (u_tx uA2))) (u_tx uA2) sA3 r3
     hB sB2 (next_call uB2 (OMsg m3 (u_tx uB2))) (u_tx uB2) sB3 r4 hA' sA4 (next_call uA3 (OMsg m4 (u_tx uA3))) (u_tx uA3) sA5 r5)
    as ((n1 & n2 & n3 & n4 & Q1 & Q2 & Q3 & Q4 & Q5 & _) & (k & KA & KB & _) & _); auto;
    try (rewrite ?M1, ?M2, ?M3, ?M4; auto; fail).
  destruct Cf as (yA & yB & YA & YB & PA & PB & _ & AB & _).
  assert (n2 = m2) as -> by (rewrite Q2 in M2; exact M2).
  assert (n3 = m3) as -> by (rewrite Q3 in M3; exact M3).
  assert (n4 = m4) as -> by (rewrite Q4 in M4; exact M4).
  destruct (K2 _ Q2) as (t1 & t2 & Et1 & H1 & H2). cbn [mr_resp mr_exchanged] in H1, H2.
  destruct H1 as [(H1 & _)|(m & H1 & ->)]; [discriminate|]. injection H1 as <-.
  destruct H2 as [(_ & ->)|(p & x & sp & k' & H2 & _)]; [|discriminate].
  destruct (K3 _ Q3) as (t3 & t4 & Et3 & H3 & H4). cbn [mr_resp mr_exchanged] in H3, H4.
  destruct H3 as [(H3 & _)|(m & H3 & ->)]; [discriminate|]. injection H3 as <-.
  destruct H4 as [(H4 & _)|(p & xA & spA & kA & H4 & XA & SpA & KA' & ->)]; [discriminate|]. injection H4 as <-.
  destruct (K4 _ Q4) as (t5 & t6 & Et5 & H5 & H6). cbn [mr_resp mr_exchanged] in H5, H6.
  destruct H5 as [(H5 & _)|(m & H5 & ->)]; [discriminate|]. injection H5 as <-.
  destruct H6 as [(H6 & _)|(p & xB & spB & kB & H6 & XB & SpB & KB' & ->)]; [discriminate|]. injection H6 as <-.
  destruct (K5 _ Q5) as (t7 & t8 & Et7 & H7 & H8). cbn [mr_resp mr_exchanged] in H7, H8.
  destruct H7 as [(_ & ->)|(m & H7 & _)]; [|discriminate].
  destruct H8 as [(_ & ->)|(p & x & sp & k' & H8 & _)]; [|discriminate].
  assert (kA = k) as -> by (eapply key_at_unique; [apply nth_error_Some; rewrite SpA; discriminate|exact KA'|exact KA]).
  assert (kB = k) as -> by (eapply key_at_unique; [apply nth_error_Some; rewrite SpB; discriminate|exact KB'|exact KB]).
  assert (forall s h s' p x y, reachable P s -> run P s h s' -> nth_error (s_peers s) p = Some x -> nth_error (s_peers s') p = Some y ->
     pidt P y = peer_id P (p_alg x) (p_spkt x)) as Id.
  { intros s h s' p x y R Rn X Y. destruct (ev_pe _ _ (run_evo P s h s' (reachable_inv P s R) Rn) p x X) as (y' & Y' & [A B]).
    unfold pe in Y'. assert (y' = y) as -> by congruence. unfold pidt. congruence. }
  assert (run P sA ([(next_call uA1 (OInitiate pA (u_tx uA1)), r1)] ++ hA ++ [(next_call uA2 (OMsg m2 (u_tx uA2)), r3)]) sA3) as RnA.
  { eapply run_app; [apply run_one; [exact V1|exact E1]|]. eapply run_app; [exact Rn1|]. apply run_one; [exact V3|exact E3]. }
  assert (run P sB ([(next_call uB1 (OMsg m1 (u_tx uB1)), r2)] ++ hB ++ [(next_call uB2 (OMsg m3 (u_tx uB2)), r4)]) sB3) as RnB.
  { eapply run_app; [apply run_one; [exact V2|exact E2]|]. eapply run_app; [exact Rn2|]. apply run_one; [exact V4|exact E4]. }
  rewrite (Id _ _ _ _ _ _ RA RnA YA SpA) in Et3. rewrite (Id _ _ _ _ _ _ RB RnB YB SpB) in Et5. rewrite PA in Et3. rewrite PB, <- AB in Et5.
  exists k, xA, xB, (p_alg yA), from1, from2, from3, from4, so1', so2', so3', so4'.
  repeat (split; [assumption|]). assumption.
Qed.
Print Assumptions C109_same_key_at_both_ends.

(** The exchange of the demonstration servers, A with the output file 7 and B with 8 and a broker. *)
Module Ends.
Import Demo.
Definition dA : turn := mkturn (secs 1) xaa false [] RNothing true.
Definition dB : turn := mkturn (secs 2) xbb false [] (RDatagram m1 0 hostY) true.
Definition dA2 : turn := mkturn (secs 1 + 100000) xcc false [] (RDatagram m2 0 hostX) true.
Definition dB2 : turn := mkturn (secs 4) xdd false [] (RDatagram m3 0 hostY) true.
Definition dA3 : turn := mkturn (secs 1 + 200000) xee false [] (RDatagram m4 0 hostX) true.
Definition runA := sim [XAdd PBuilder.pB (Some 7) None (Some [hostX])] newA.
Definition runB := sim [XTurn (secs 1) xab false [IBroker 5 true] RNothing true; XAdd PApp.pA (Some 8) (Some 0) None; XTurn (secs 1) xac false [] RNothing true] newB.
Definition a0 := Eval vm_compute in end_of runA.
Definition b0 := Eval vm_compute in end_of runB.
Definition after (u : turn) (a : App.app) := fst (fst (fst (app_turn P u a))).
Definition effs (u : turn) (a : App.app) := snd (fst (app_turn P u a)).
Definition mid (u : turn) (a : App.app) : srv := match a_site a with Product s => fst (exec P (poll_call u) s) | _ => A0 end.
Definition a1 := Eval vm_compute in after dA a0.
Definition b1 := Eval vm_compute in after dB b0.
Definition a2 := Eval vm_compute in after dA2 a1.
Definition b2 := Eval vm_compute in after dB2 b1.
Definition a3 := Eval vm_compute in after dA3 a2.
Definition sA := Eval vm_compute in mid dA a0.
Definition sA1 := Eval vm_compute in engine_of a1.
Definition sB := Eval vm_compute in mid dB b0.
Definition sB1 := Eval vm_compute in engine_of b1.
Definition sA2 := Eval vm_compute in mid dA2 a1.
Definition sA3 := Eval vm_compute in engine_of a2.
Definition sB2 := Eval vm_compute in mid dB2 b1.
Definition sA4 := Eval vm_compute in mid dA3 a2.
Definition t1 := Eval vm_compute in effs dA a0.
Definition t2 := Eval vm_compute in effs dB b0.
Definition t3 := Eval vm_compute in effs dA2 a1.
Definition t4 := Eval vm_compute in effs dB2 b1.
Definition key := Eval vm_compute in match t3 with [_; KeyFile _ k; _] => k | _ => [] end.
Lemma a0_settled : settled P a0.
Proof. eapply (end_settled _ _ _ _ runA); [reflexivity|vm_compute; reflexivity]. Qed.
Lemma b0_settled : settled P b0.
Proof. eapply (end_settled _ _ _ _ runB); [reflexivity|vm_compute; reflexivity]. Qed.
Lemma goes_on_refl a : goes_on P a a.
Proof. exists []. split; [constructor|intros o r []]. Qed.
Lemma turns_demo t b rv a a' x s o :
  match rv with RDatagram _ k _ => k < io_sockets (a_io a) | _ => True end ->
  (exists s0 q, a_site a = Product s0 /\ exec P (poll_call (mkturn t b false [] rv true)) s0 = (s, Ok (RPolled q))) ->
  (exists cs r, app_turn P (mkturn t b false [] rv true) a = (a', cs, x, Ok false) /\
     nth_error cs 1 = Some (next_call (mkturn t b false [] rv true) o, r)) ->
  turns P a (mkturn t b false [] rv true) a' x s o.
Proof.
  intros H Po (cs & r & E & N). split; [now apply mkturn_ok|]. split; [exact Po|]. exists cs, r. split; [exact E|].
  eapply nth_error_In; eauto.
Qed.
End Ends.
Ltac demo_turn := apply Ends.turns_demo; [vm_compute; repeat constructor
  |eexists _, _; split; [reflexivity|vm_compute; reflexivity]
  |eexists _, _; split; [vm_compute; reflexivity|reflexivity]].

Example C109_case :
  turns Demo.P Ends.a0 Ends.dA Ends.a1 Ends.t1 Ends.sA (OInitiate 0 Demo.tx) /\ In (Sent 0 hostX Demo.m1) Ends.t1 /\
  turns Demo.P Ends.b0 Ends.dB Ends.b1 Ends.t2 Ends.sB (OMsg Demo.m1 Demo.tx) /\ In (Sent 0 hostY Demo.m2) Ends.t2 /\
  turns Demo.P Ends.a1 Ends.dA2 Ends.a2 Ends.t3 Ends.sA2 (OMsg Demo.m2 Demo.tx) /\ In (Sent 0 hostX Demo.m3) Ends.t3 /\
  turns Demo.P Ends.b1 Ends.dB2 Ends.b2 Ends.t4 Ends.sB2 (OMsg Demo.m3 Demo.tx) /\ In (Sent 0 hostY Demo.m4) Ends.t4 /\
  turns Demo.P Ends.a2 Ends.dA3 Ends.a3 [] Ends.sA4 (OMsg Demo.m4 Demo.tx) /\
  settled Demo.P Ends.a0 /\ settled Demo.P Ends.b0 /\ genuine Demo.P Ends.sA /\ genuine Demo.P Ends.sB /\
  configured Ends.sA 0 Ends.sB 0 /\ sid_unused Ends.sA (c_sid (snd (u_call Ends.dA))) /\ ~ version Ends.sB 0 Blake /\
  still_pending Ends.sA1 Ends.sA2 0 /\ still_pending Ends.sA3 Ends.sA4 0 /\ same_session Ends.sA3 Ends.sA4 0 /\
  named_key Ends.sB2 (resp_biscuit Demo.m2) = named_key Ends.sB1 (resp_biscuit Demo.m2) /\
  (last_used Ends.sB2 0 < le_dec (s_bctr Ends.sB))%N /\
  idx_get (KSid (c_sid (snd (u_call Ends.dB)))) (s_index Ends.sB2) = None /\
  idx_get (KKnown (known_hash Demo.P Ends.sB2 Demo.m3)) (s_index Ends.sB2) = None /\
  length Ends.key = 32 /\
  (exists id, Ends.t3 = [Sent 0 hostX Demo.m3; KeyFile 7 Ends.key; KeyLine 7 id Exchanged]) /\
  (exists id, Ends.t4 = [Sent 0 hostY Demo.m4; KeyFile 8 Ends.key; KeyLine 8 id Exchanged; SetPsk 0 0 Ends.key]).
Proof.
  split; [demo_turn|]. split; [left; reflexivity|]. split; [demo_turn|]. split; [left; reflexivity|].
  split; [demo_turn|]. split; [left; reflexivity|]. split; [demo_turn|]. split; [left; reflexivity|].
  split; [demo_turn|]. split; [exact Ends.a0_settled|]. split; [exact Ends.b0_settled|].
  split; [vm_compute; reflexivity|]. split; [vm_compute; reflexivity|].
  split. { eexists _, _. split; [reflexivity|]. split; [reflexivity|]. repeat split; vm_compute; reflexivity. }
  split. { split; [vm_compute; reflexivity|]. intros [|p] x E; [|destruct p; discriminate].
    injection E as <-. split; discriminate. }
  split. { intros (x & E & A). vm_compute in E. injection E as <-. discriminate. }
  split. { eexists _, _, _, _. repeat (split; [reflexivity|]). vm_compute. reflexivity. }
  split. { eexists _, _, _, _. repeat (split; [reflexivity|]). vm_compute. reflexivity. }
  split; [reflexivity|]. split; [vm_compute; reflexivity|]. split; [vm_compute; reflexivity|].
  split; [vm_compute; reflexivity|]. split; [vm_compute; reflexivity|]. split; [reflexivity|].
  split; eexists; reflexivity.
Qed.
