(** C60-C63, C65: receiving datagrams and load detection. *)
From Verif Require Import Base Wire Server AppNet AppRecv.

(** * Basic facts *)

Definition at_ (k : kernel) (i : nat) : option usock := nth_error (k_socks k) i.
(** Datagrams that have arrived and wait at socket [i]. *)
Definition all_at (i : nat) (k : kernel) : list dgram := match at_ k i with Some s => k_all s | None => [] end.
Definition wait_at (i : nat) (k : kernel) : list dgram := match at_ k i with Some s => k_wait s | None => [] end.

Lemma arrive_at a k i : at_ (arrive a k) i =
  match at_ k i with
  | Some s => Some (if Nat.eqb (fst a) i then {| k_wait := k_wait s ++ [snd a]; k_edge := true; k_all := k_all s ++ [snd a] |} else s)
  | None => None
  end.
Proof.
  unfold arrive, at_. destruct (nth_error (k_socks k) (fst a)) as [s|] eqn:S.
  - cbn [k_socks]. destruct (Nat.eqb_spec (fst a) i) as [<-|N].
    + rewrite nth_error_upd_eq by (eapply nth_error_Some; rewrite S; discriminate). now rewrite S.
    + rewrite nth_error_upd_neq by exact N. now destruct (nth_error _ i).
  - destruct (Nat.eqb_spec (fst a) i) as [<-|N]; [now rewrite S|]. now destruct (nth_error _ i).
Qed.
Lemma arrive_len a k : length (k_socks (arrive a k)) = length (k_socks k).
Proof. unfold arrive. destruct (nth_error _ _); [cbn; apply upd_length|reflexivity]. Qed.
Lemma arrives_len l k : length (k_socks (arrives l k)) = length (k_socks k).
Proof. revert k. induction l as [|a l IH]; intros k; [reflexivity|]. cbn. rewrite <- (arrive_len a k). apply IH. Qed.
Lemma arrive_sig a k : k_sig (arrive a k) = k_sig k.
Proof. unfold arrive. now destruct (nth_error _ _). Qed.
Lemma arrives_sig l k : k_sig (arrives l k) = k_sig k.
Proof. revert k. induction l as [|a l IH]; intros k; [reflexivity|]. cbn. rewrite <- (arrive_sig a k). apply IH. Qed.

(** Reading takes the first datagram of one socket. *)
Lemma recv_sock_spec v i k k' x : recv_sock v i k = (k', x) ->
  length (k_socks k') = length (k_socks k) /\ k_sig k' = k_sig k /\
  match x with
  | inl true => k' = k /\ (v_err v i = true \/ at_ k i = None)
  | inl false => k' = k /\ wait_at i k = []
  | inr d => exists s d0 l, at_ k i = Some s /\ k_wait s = d0 :: l /\ d = trim d0 /\
      forall j, at_ k' j = if Nat.eqb i j then Some {| k_wait := l; k_edge := k_edge s; k_all := k_all s |} else at_ k j
  end.
Proof.
  unfold recv_sock, wait_at, at_. destruct (v_err v i); [intros [= <- <-]; auto|].
  destruct (nth_error (k_socks k) i) as [s|] eqn:S; [|intros [= <- <-]; auto].
  destruct (k_wait s) as [|d l] eqn:W; intros [= <- <-]; cbn [k_socks k_sig]; auto.
  split; [apply upd_length|]. split; [reflexivity|]. exists s, d, l. repeat split; auto.
  intros j. destruct (Nat.eqb_spec i j) as [<-|N].
  - apply nth_error_upd_eq. apply nth_error_Some. rewrite S. discriminate.
  - now apply nth_error_upd_neq.
Qed.

(** * C60 *)

(** The accounts of socket [i]: everything that has arrived is what was read before ([l]) and
    what waits. *)
Definition account (i : nat) (l : list dgram) (k : kernel) : Prop :=
  map trim (all_at i k) = l ++ map trim (wait_at i k).
Definition of_got (i : nat) (g : got) : list dgram :=
  match g with GMessage j d => if Nat.eqb j i then [d] else [] | _ => [] end.

Lemma account_arrive i l a k : account i l k -> account i l (arrive a k).
Proof.
  unfold account, all_at, wait_at. rewrite arrive_at. destruct (at_ k i) as [s|]; auto.
  destruct (Nat.eqb _ _); auto. cbn [k_all k_wait]. intros H. rewrite !map_app, H. now rewrite app_assoc.
Qed.
Lemma account_arrives i l a k : account i l k -> account i l (arrives a k).
Proof. revert k. induction a as [|x a IH]; intros k H; [exact H|]. cbn. apply IH. now apply account_arrive. Qed.
Lemma account_recv v i l j k k' x : account i l k -> recv_sock v j k = (k', x) ->
  account i (l ++ match x with inr d => of_got i (GMessage j d) | _ => [] end) k'.
Proof.
  intros A E. destruct (recv_sock_spec v j k k' x E) as (_ & _ & K).
  destruct x as [[]|d]; try (destruct K as [-> _]; now rewrite app_nil_r).
  destruct K as (s & d0 & l0 & S & W & -> & K). unfold account, all_at, wait_at in *. rewrite (K i). cbn [of_got].
  destruct (Nat.eqb_spec j i) as [->|N]; [|now rewrite app_nil_r].
  rewrite S in A. cbn [k_all k_wait]. rewrite A, W. cbn [map]. now rewrite <- app_assoc.
Qed.
Lemma account_sig i l k k' g : account i l k -> recv_signal k = (k', g) -> account i (l ++ of_got i g) k'.
Proof. unfold recv_signal. destruct (k_sig k); intros A [= <- <-]; cbn [of_got]; rewrite app_nil_r; exact A. Qed.
Lemma account_ready v i l e k k' g : account i l k -> recv_ready v e k = (k', g) -> account i (l ++ of_got i g) k'.
Proof.
  destruct e as [|j|]; cbn [recv_ready]; intros A E.
  - eapply account_sig; eauto.
  - destruct (recv_sock v j k) as [k1 x] eqn:R. pose proof (account_recv v i l j k k1 x A R) as H.
    destruct x as [[]|d]; injection E as <- <-; exact H.
  - injection E as <- <-. destruct (v_other_ok v); cbn [of_got]; rewrite app_nil_r; exact A.
Qed.
Lemma account_queue v i l q : forall k k' q' g, account i l k -> handle_queue v q k = (k', q', g) -> account i (l ++ of_got i g) k'.
Proof.
  induction q as [|e q IH]; intros k k' q' g A E; cbn [handle_queue] in E.
  - injection E as <- <- <-. now rewrite app_nil_r.
  - destruct (recv_ready v e k) as [k1 g1] eqn:R. pose proof (account_ready v i l e k k1 g1 A R) as A1.
    destruct g1; try (injection E as <- <- <-; exact A1). try (cbn [of_got] in A1); rewrite app_nil_r in A1; eapply IH; eauto.
Qed.
Lemma account_scan v i l n : forall j k k' g, account i l k -> scan v n j k = (k', g) -> account i (l ++ of_got i g) k'.
Proof.
  induction n as [|n IH]; intros j k k' g A E; cbn [scan] in E.
  - injection E as <- <-. now rewrite app_nil_r.
  - pose proof (account_arrives i l (v_scan v j) k A) as A0.
    destruct (recv_sock v j _) as [k1 x] eqn:R. pose proof (account_recv v i l j _ k1 x A0 R) as A1.
    destruct x as [[]|d]; try (injection E as <- <-; exact A1). try (cbn [of_got] in A1); rewrite app_nil_r in A1; eapply IH; eauto.
Qed.
Lemma mio_poll_at m x k i : at_ (fst (mio_poll m x k)) i =
  option_map (fun s => {| k_wait := k_wait s; k_edge := false; k_all := k_all s |}) (at_ k i).
Proof. unfold at_, mio_poll. cbn [fst k_socks]. apply nth_error_map. Qed.
Lemma mio_poll_len m x k : length (k_socks (fst (mio_poll m x k))) = length (k_socks k).
Proof. cbn. apply map_length. Qed.
Lemma account_mio m x i l k : account i l k -> account i l (fst (mio_poll m x k)).
Proof. unfold account, all_at, wait_at. rewrite mio_poll_at. now destruct (at_ k i). Qed.
Lemma account_polls m v i l r k r' k' w : account i l k -> polls m v r k = (r', k', w) -> account i l k'.
Proof.
  unfold polls. intros A E. destruct (_ || _); [injection E as <- <- <-; exact A|].
  destruct (negb (v_poll_ok v)); [injection E as <- <- <-; exact A|].
  pose proof (account_mio m (v_extra1 v) i l k A) as A1. destruct (mio_poll m (v_extra1 v) k) as [k1 q1]. cbn [fst] in A1.
  destruct (r_queue (set_queue _ _)); [|injection E as <- <- <-; exact A1].
  destruct (negb (r_long _)); [injection E as <- <- <-; exact A1|].
  pose proof (account_mio m (v_extra2 v) i l _ (account_arrives i l (v_block v) k1 A1)) as A2.
  destruct (mio_poll m (v_extra2 v) _) as [k2 q2]. injection E as <- <- <-. exact A2.
Qed.
Lemma account_try m v i l r k r' k' w g : account i l k -> try_recv m v r k = (r', k', w, g) -> account i (l ++ of_got i g) k'.
Proof.
  unfold try_recv. intros A E. destruct (polls m v r k) as [[r1 k1] w1] eqn:Po.
  pose proof (account_polls m v i l r k r1 k1 w1 A Po) as A1.
  destruct w1 as [w1|]; [|injection E as <- <- <- <-; cbn [of_got]; now rewrite app_nil_r].
  pose proof (account_arrives i l (v_mid v) k1 A1) as A2.
  destruct (handle_queue v _ _) as [[k2 q2] g2] eqn:Hq. pose proof (account_queue v i l _ _ _ _ _ A2 Hq) as A3.
  destruct g2; try (injection E as <- <- <- <-; exact A3). cbn [of_got] in A3. rewrite app_nil_r in A3.
  destruct (recv_signal k2) as [k3 g3] eqn:Sg. pose proof (account_sig i l _ _ _ A3 Sg) as A4.
  destruct g3; try (injection E as <- <- <- <-; exact A4). cbn [of_got] in A4. rewrite app_nil_r in A4.
  destruct (scan v _ 0 k3) as [k4 g4] eqn:Sc. pose proof (account_scan v i l _ _ _ _ _ A4 Sc) as A5.
  destruct g4; try (injection E as <- <- <- <-; exact A5).
  destruct (v_other_ok v); injection E as <- <- <- <-; exact A5.
Qed.

(** The datagrams handed over in a history that came in through socket [i]. *)
Definition read_from (i : nat) (h : list (rop * rout)) : list dgram :=
  flat_map (fun p => match snd p with ORecv _ (GMessage j d) => if Nat.eqb j i then [d] else [] | _ => [] end) h.

(** Whatever the order of arrivals, calls, errors and spurious events: the datagrams handed over
    from a socket, followed by those that wait, are all that have arrived there, each once and in
    order (cut off at 2500 bytes). *)
Definition cut (d : dgram) : dgram := (firstn 2500 (fst d), snd d).
Theorem C60_exactly_once : forall m now dos n h r k i,
  rrun m (r_new now dos) (k_new n) h r k ->
  map cut (all_at i k) = read_from i h ++ map cut (wait_at i k).
Proof.
  change cut with trim.
  intros m now dos n h r k i R.
  assert (forall r0 k0 l, rrun m r0 k0 h r k -> account i l k0 -> account i (l ++ read_from i h) k) as G.
  { clear R. intros r0 k0 l R. revert l. induction R as [r0 k0|r0 k0 o r1 k1 y h r2 k2 E R IH]; intros l A.
    - cbn. now rewrite app_nil_r.
    - change (read_from i ((o, y) :: h)) with ((match y with ORecv _ (GMessage j d) => if Nat.eqb j i then [d] else [] | _ => [] end) ++ read_from i h).
      rewrite app_assoc. apply IH. destruct o as [a| |v]; cbn [rexec] in E.
      + injection E as <- <- <-. rewrite app_nil_r. now apply account_arrive.
      + injection E as <- <- <-. rewrite app_nil_r. exact A.
      + destruct (try_recv m v r0 k0) as [[[r3 k3] w] g] eqn:T. injection E as <- <- <-.
        pose proof (account_try m v i l r0 k0 r3 k3 w g A T) as H. exact H. }
  specialize (G _ _ [] R). cbn [app] in G. apply G. unfold account, all_at, wait_at, at_, k_new. cbn [k_socks].
  destruct (nth_error (repeat _ n) i) as [s|] eqn:S; [|reflexivity].
  apply nth_error_In, repeat_spec in S. now subst s.
Qed.
Print Assumptions C60_exactly_once.

(** Between two states nothing was read. *)
Definition grew (k k' : kernel) : Prop := forall i, exists l, wait_at i k' = wait_at i k ++ l.
Lemma grew_refl k : grew k k. Proof. intros i. exists []. now rewrite app_nil_r. Qed.
Lemma grew_trans k1 k2 k3 : grew k1 k2 -> grew k2 k3 -> grew k1 k3.
Proof. intros A B i. destruct (A i) as [x X]. destruct (B i) as [y Y]. exists (x ++ y). rewrite Y, X. now rewrite app_assoc. Qed.
Lemma grew_arrive a k : grew k (arrive a k).
Proof.
  intros i. unfold wait_at. rewrite arrive_at. destruct (at_ k i) as [s|]; [|now exists []].
  destruct (Nat.eqb _ _); [now exists [snd a]|]. exists []. now rewrite app_nil_r.
Qed.
Lemma grew_arrives l k : grew k (arrives l k).
Proof. revert k. induction l as [|a l IH]; intros k; [apply grew_refl|]. cbn. eapply grew_trans; [apply grew_arrive|apply IH]. Qed.
Lemma grew_mio m x k : grew k (fst (mio_poll m x k)).
Proof. intros i. exists []. unfold wait_at. rewrite mio_poll_at, app_nil_r. now destruct (at_ k i). Qed.
Lemma grew_recv v i k k' b : recv_sock v i k = (k', inl b) -> grew k k'.
Proof. intros E. destruct (recv_sock_spec _ _ _ _ _ E) as (_ & _ & K). destruct b; destruct K as [-> _]; apply grew_refl. Qed.
Lemma grew_sig k k' g : recv_signal k = (k', g) -> grew k k'.
Proof. unfold recv_signal. destruct (k_sig k); intros [= <- <-]; [|apply grew_refl]. intros i. exists []. now rewrite app_nil_r. Qed.
Definition no_message (g : got) : Prop := forall i d, g <> GMessage i d.
Lemma grew_queue v q : forall k k' q' g, handle_queue v q k = (k', q', g) -> no_message g -> grew k k'.
Proof.
  induction q as [|e q IH]; intros k k' q' g E N; cbn [handle_queue] in E; [injection E as <- <- <-; apply grew_refl|].
  assert (forall k1 g1, recv_ready v e k = (k1, g1) -> no_message g1 -> grew k k1) as H.
  { intros k1 g1 R N1. destruct e as [|i|]; cbn [recv_ready] in R.
    - eapply grew_sig; eauto.
    - destruct (recv_sock v i k) as [k2 [b|d]] eqn:S; [|injection R as <- <-; now elim (N1 i d)].
      apply grew_recv in S. destruct b; injection R as <- <-; exact S.
    - injection R as <- <-. apply grew_refl. }
  destruct (recv_ready v e k) as [k1 g1] eqn:R. specialize (H k1 g1 eq_refl).
  destruct g1; try (injection E as <- <- <-; apply H; exact N).
  eapply grew_trans; [apply H; intros i d; discriminate|eauto].
Qed.
Lemma scan_none v n : forall j k k', scan v n j k = (k', GNone) ->
  grew k k' /\ forall i, j <= i < j + n -> wait_at i k = [].
Proof.
  induction n as [|n IH]; intros j k k' E; cbn [scan] in E; [injection E as <-; split; [apply grew_refl|lia]|].
  destruct (recv_sock v j _) as [k1 [[]|d]] eqn:R; try discriminate.
  destruct (recv_sock_spec _ _ _ _ _ R) as (_ & _ & -> & W). destruct (IH _ _ _ E) as (G & H).
  pose proof (grew_arrives (v_scan v j) k) as G0. split; [eapply grew_trans; eauto|].
  intros i Hi. destruct (G0 i) as [x X]. destruct (Nat.eq_dec i j) as [->|N].
  - rewrite W in X. now destruct (wait_at j k).
  - specialize (H i ltac:(lia)). rewrite H in X. now destruct (wait_at i k).
Qed.
Lemma grew_polls m v r k r' k' w : polls m v r k = (r', k', w) -> grew k k'.
Proof.
  unfold polls. intros E. destruct (_ || _); [injection E as <- <- <-; apply grew_refl|].
  destruct (negb (v_poll_ok v)); [injection E as <- <- <-; apply grew_refl|].
  pose proof (grew_mio m (v_extra1 v) k) as A1. destruct (mio_poll m (v_extra1 v) k) as [k1 q1]. cbn [fst] in A1.
  destruct (r_queue (set_queue _ _)); [|injection E as <- <- <-; exact A1].
  destruct (negb (r_long _)); [injection E as <- <- <-; exact A1|].
  pose proof (grew_mio m (v_extra2 v) (arrives (v_block v) k1)) as A2.
  destruct (mio_poll m (v_extra2 v) _) as [k2 q2]. injection E as <- <- <-.
  eapply grew_trans; [exact A1|]. eapply grew_trans; [apply grew_arrives|exact A2].
Qed.

(** A call that returns nothing found every socket empty: in particular nothing was waiting
    when it began.  So as long as datagrams wait, each call hands one over, unless there is a
    signal or an error. *)
Theorem C60_progress : forall m v r k r' k' w i,
  try_recv m v r k = (r', k', w, GNone) -> wait_at i k = [].
Proof.
  intros m v r k r' k' w i E. unfold try_recv in E. destruct (polls m v r k) as [[r1 k1] w1] eqn:Po.
  pose proof (grew_polls _ _ _ _ _ _ _ Po) as G1. destruct w1 as [w1|]; [|discriminate].
  pose proof (grew_arrives (v_mid v) k1) as G2.
  destruct (handle_queue v _ _) as [[k2 q2] g2] eqn:Hq. destruct g2; try discriminate.
  pose proof (grew_queue _ _ _ _ _ _ Hq ltac:(intros ? ?; discriminate)) as G3.
  destruct (recv_signal k2) as [k3 g3] eqn:Sg. destruct g3; try discriminate. pose proof (grew_sig _ _ _ Sg) as G4.
  destruct (scan v _ 0 k3) as [k4 g4] eqn:Sc. destruct g4; try discriminate.
  destruct (scan_none _ _ _ _ _ Sc) as (G5 & H).
  assert (wait_at i k3 = []) as Z.
  { destruct (Nat.lt_ge_cases i (length (k_socks k3))) as [L|L]; [apply H; lia|].
    unfold wait_at, at_. rewrite (proj2 (nth_error_None _ _) L). reflexivity. }
  assert (grew k k3) as G by exact (grew_trans _ _ _ G1 (grew_trans _ _ _ G2 (grew_trans _ _ _ G3 G4))).
  destruct (G i) as [x X]. rewrite Z in X. now destruct (wait_at i k).
Qed.
Print Assumptions C60_progress.

(** * C61 *)

Lemma ready_none m l : forall i, ready_socks m i l = [] -> Forall (fun s => sock_ready m s = false) l.
Proof.
  induction l as [|s l IH]; intros i H; constructor; cbn [ready_socks] in H.
  - destruct (sock_ready m s); [discriminate|reflexivity].
  - apply (IH (S i)). now apply app_eq_nil in H.
Qed.
Lemma polls_blocking m v r k r' k' ks : polls m v r k = (r', k', Some (Blocking ks)) ->
  ks = fst (mio_poll m (v_extra1 v) k) /\ snd (mio_poll m (v_extra1 v) k) = [] /\ r_drained r = true /\ r_queue r = [] /\ r_long r = true.
Proof.
  unfold polls. destruct (negb (r_drained r) || _) eqn:B; [discriminate|]. destruct (negb (v_poll_ok v)); [discriminate|].
  apply Bool.orb_false_iff in B. destruct B as [B1 B2]. apply Bool.negb_false_iff in B1.
  destruct (r_queue r) eqn:Q; [|discriminate]. destruct (mio_poll m (v_extra1 v) k) as [k1 q1].
  cbn [set_queue r_queue app]. destruct q1; [|discriminate]. cbn [set_queue r_long].
  destruct (r_long r) eqn:Lo; [|discriminate]. cbn [negb].
  destruct (mio_poll m (v_extra2 v) _) as [k2 q2]. intros [= _ _ <-]. auto.
Qed.
Lemma try_blocking m v r k r' k' ks g : try_recv m v r k = (r', k', Some (Blocking ks), g) ->
  exists r1 k1, polls m v r k = (r1, k1, Some (Blocking ks)).
Proof.
  unfold try_recv. destruct (polls m v r k) as [[r1 k1] [w1|]]; [|discriminate].
  destruct (handle_queue v _ _) as [[k2 q2] g2]. intros E. assert (w1 = Blocking ks) as ->; [|eauto].
  destruct g2; try congruence. destruct (recv_signal k2) as [k3 g3]. destruct g3; try congruence.
  destruct (scan v _ 0 k3) as [k4 g4]. destruct g4; try congruence. destruct (v_other_ok v); congruence.
Qed.

(** With level-triggered readiness, as the comment in the code assumes, the server never goes to
    sleep while a datagram waits. *)
Theorem C61_level_partial : forall v r k r' k' ks g i,
  try_recv Level v r k = (r', k', Some (Blocking ks), g) -> wait_at i ks = [].
Proof.
  intros v r k r' k' ks g i E. destruct (try_blocking _ _ _ _ _ _ _ _ E) as (r1 & k1 & Po).
  destruct (polls_blocking _ _ _ _ _ _ _ Po) as (-> & Q & _).
  cbn [mio_poll snd] in Q. apply app_eq_nil in Q. destruct Q as [_ Q]. apply app_eq_nil in Q. destruct Q as [_ Q].
  apply ready_none in Q. unfold wait_at. rewrite mio_poll_at. unfold at_.
  destruct (nth_error (k_socks k) i) as [s|] eqn:S; [|reflexivity]. cbn [option_map k_wait].
  rewrite Forall_forall in Q. specialize (Q s (nth_error_In _ _ S)). cbn [sock_ready] in Q. now destruct (k_wait s).
Qed.
Print Assumptions C61_level_partial.

(** With edge-triggered readiness: as long as no second datagram waits behind one that has just
    been handed over. *)
Definition noted (r : rstate) (k : kernel) : Prop :=
  forall i s, at_ k i = Some s -> k_wait s <> [] -> k_edge s = true \/ In (EvSock i) (r_queue r).

Lemma noted_arrive a r k : noted r k -> noted r (arrive a k).
Proof.
  intros H i s. rewrite arrive_at. destruct (at_ k i) as [s0|] eqn:S; [|discriminate].
  destruct (Nat.eqb _ _); intros [= <-] W; [now left|]. exact (H i s0 S W).
Qed.
Lemma noted_arrives l r k : noted r k -> noted r (arrives l k).
Proof. revert k. induction l as [|a l IH]; intros k H; [exact H|]. cbn. apply IH. now apply noted_arrive. Qed.
Lemma in_ready m l : forall i j s, nth_error l j = Some s -> sock_ready m s = true -> In (EvSock (i + j)) (ready_socks m i l).
Proof.
  induction l as [|x l IH]; intros i j s Hs R; [now destruct j|]. cbn [ready_socks]. apply in_app_iff. destruct j as [|j].
  - injection Hs as ->. rewrite R. left. rewrite Nat.add_0_r. now left.
  - right. replace (i + S j) with (S i + j) by lia. eapply IH; eauto.
Qed.
Lemma noted_mio x r k : noted r k ->
  noted (set_queue (r_queue r ++ snd (mio_poll Edge x k)) r) (fst (mio_poll Edge x k)).
Proof.
  intros H i s. rewrite mio_poll_at. destruct (at_ k i) as [s0|] eqn:S; [|discriminate]. intros [= <-] W. right.
  cbn [set_queue r_queue]. apply in_app_iff. cbn [k_wait] in W. destruct (H i s0 S W) as [E|E]; [right|now left].
  cbn [mio_poll snd]. apply in_app_iff. right. apply in_app_iff. right.
  change i with (0 + i). eapply in_ready; [exact S|exact E].
Qed.
Lemma noted_weak r r' k : r_queue r' = r_queue r -> noted r k -> noted r' k.
Proof. intros E H i s. rewrite E. apply H. Qed.
Lemma noted_polls v r k r' k' w : noted r k -> polls Edge v r k = (r', k', w) -> noted r' k'.
Proof.
  unfold polls. intros N E. destruct (_ || _); [injection E as <- <- <-; exact N|].
  destruct (negb (v_poll_ok v)); [injection E as <- <- <-; exact N|].
  pose proof (noted_mio (v_extra1 v) r k N) as N1. destruct (mio_poll Edge (v_extra1 v) k) as [k1 q1]. cbn [fst snd] in N1.
  destruct (r_queue (set_queue (r_queue r ++ q1) r)) eqn:Q; [|injection E as <- <- <-; exact N1].
  destruct (negb (r_long _)); [injection E as <- <- <-; exact N1|].
  match type of E with context [mio_poll Edge (v_extra2 v) (arrives (v_block v) k1)] =>
    pose proof (noted_mio (v_extra2 v) _ _ (noted_arrives (v_block v) _ _ N1)) as N2 end.
  destruct (mio_poll Edge (v_extra2 v) _) as [k2 q2]. cbn [fst snd] in N2. injection E as <- <- <-.
  eapply noted_weak; [|exact N2]. reflexivity.
Qed.

(** After a datagram is read from a socket that is then empty, everything is still noted. *)
Lemma noted_recv v i r r' k k' x : noted r k -> recv_sock v i k = (k', x) ->
  (forall e, In e (r_queue r) -> e = EvSock i \/ In e (r_queue r')) ->
  match x with inl false => True | inl true => False | inr _ => wait_at i k' = [] end ->
  noted r' k'.
Proof.
  intros N E Q H. destruct (recv_sock_spec _ _ _ _ _ E) as (_ & _ & K). intros j s S W.
  destruct x as [[]|d]; [contradiction| |].
  - destruct K as [-> K]. destruct (N j s S W) as [A|A]; [now left|]. destruct (Q _ A) as [B|B]; [|now right].
    injection B as ->. unfold wait_at in K. rewrite S in K. contradiction.
  - destruct K as (s0 & d0 & l & S0 & W0 & _ & K). rewrite K in S.
    destruct (Nat.eqb_spec i j) as [->|Nj].
    + injection S as <-. unfold wait_at in H. rewrite K, Nat.eqb_refl in H. contradiction.
    + destruct (N j s S W) as [A|A]; [now left|]. destruct (Q _ A) as [B|B]; [congruence|now right].
Qed.
Definition last_one (g : got) (k : kernel) : Prop :=
  match g with GMessage i _ => wait_at i k = [] | GError => False | _ => True end.
Lemma noted_queue v q : forall r k k' q' g, r_queue r = q -> noted r k -> handle_queue v q k = (k', q', g) -> last_one g k' ->
  noted (set_queue q' r) k'.
Proof.
  induction q as [|e q IH]; intros r k k' q' g Eq N E H; cbn [handle_queue] in E.
  - injection E as <- <- <-. eapply noted_weak; [|exact N]. now rewrite Eq.
  - assert (forall k1 g1, recv_ready v e k = (k1, g1) -> last_one g1 k1 -> noted (set_queue q r) k1) as G.
    { intros k1 g1 R H1. destruct e as [|i|]; cbn [recv_ready] in R.
      - unfold recv_signal in R. destruct (k_sig k); injection R as <- <-; intros j s S W;
          (destruct (N j s S W) as [A|A]; [now left|rewrite Eq in A; destruct A as [A|A]; [discriminate|now right]]).
      - destruct (recv_sock v i k) as [k2 x] eqn:S.
        eapply (noted_recv v i r _ k _ x N).
        + rewrite S. f_equal. destruct x as [[]|d]; injection R as <- _; reflexivity.
        + rewrite Eq. intros e [<-|He]; [now left|now right].
        + destruct x as [[]|d]; injection R as <- <-; exact H1.
      - injection R as <- <-. intros j s S W. destruct (N j s S W) as [A|A]; [now left|rewrite Eq in A].
        destruct A as [A|A]; [discriminate|now right]. }
    destruct (recv_ready v e k) as [k1 g1] eqn:R. specialize (G k1 g1 eq_refl).
    destruct g1; try (injection E as <- <- <-; apply G; exact H).
    specialize (IH (set_queue q r) k1 k' q' g eq_refl (G Logic.I) E H). exact IH.
Qed.
Lemma noted_scan v n : forall i r k k' g, noted r k -> scan v n i k = (k', g) -> last_one g k' -> noted r k'.
Proof.
  induction n as [|n IH]; intros i r k k' g N E H; cbn [scan] in E; [injection E as <- <-; exact N|].
  pose proof (noted_arrives (v_scan v i) r k N) as N0.
  destruct (recv_sock v i _) as [k1 x] eqn:R.
  destruct x as [[]|d].
  - injection E as <- <-. contradiction.
  - refine (IH _ r k1 k' g _ E H). exact (noted_recv v i r r _ _ _ N0 R ltac:(auto) Logic.I).
  - injection E as <- <-. exact (noted_recv v i r r _ _ _ N0 R ltac:(auto) H).
Qed.
Lemma noted_try v r k r' k' w g : noted r k -> try_recv Edge v r k = (r', k', w, g) -> last_one g k' -> noted r' k'.
Proof.
  unfold try_recv. intros N E H. destruct (polls Edge v r k) as [[r1 k1] w1] eqn:Po.
  pose proof (noted_polls v r k r1 k1 w1 N Po) as N1.
  destruct w1 as [w1|]; [|injection E as <- <- <- <-; contradiction].
  assert (noted (load_status (v_now v) r1) (arrives (v_mid v) k1)) as N2.
  { apply noted_arrives. eapply noted_weak; [|exact N1]. unfold load_status. destruct (r_dos r1); [reflexivity|].
    destruct (_ <? _)%Z; reflexivity. }
  destruct (handle_queue v _ _) as [[k2 q2] g2] eqn:Hq.
  pose proof (noted_queue v _ _ _ _ _ _ eq_refl N2 Hq) as N3.
  destruct g2; try (injection E as <- <- <- <-; apply N3; exact H). specialize (N3 Logic.I).
  destruct (recv_signal k2) as [k3 g3] eqn:Sg.
  assert (noted (set_queue q2 (load_status (v_now v) r1)) k3) as N4.
  { unfold recv_signal in Sg. destruct (k_sig k2); injection Sg as <- _; exact N3. }
  destruct g3; try (injection E as <- <- <- <-; exact N4).
  destruct (scan v _ 0 k3) as [k4 g4] eqn:Sc. pose proof (noted_scan v _ _ _ _ _ _ N4 Sc) as N5.
  destruct g4; try (injection E as <- <- <- <-; eapply noted_weak; [|apply N5; exact H]; reflexivity).
  specialize (N5 Logic.I). destruct (v_other_ok v); injection E as <- <- <- <-; [|contradiction].
  eapply noted_weak; [|exact N5]. reflexivity.
Qed.

(** If every datagram that is handed over leaves its socket empty (datagrams come one at a time)
    and there are no errors, the server never goes to sleep while a datagram waits. *)
Inductive one_by_one : rstate -> kernel -> list (rop * rout) -> Prop :=
| ob_nil r k : one_by_one r k []
| ob_cons r k o r1 k1 y h : rexec Edge o r k = (r1, k1, y) ->
    match y with ORecv _ g => last_one g k1 | ONothing => True end ->
    one_by_one r1 k1 h -> one_by_one r k ((o, y) :: h).
Theorem C61_edge_partial : forall now dos n h v ks g i,
  one_by_one (r_new now dos) (k_new n) h ->
  In (Recv v, ORecv (Some (Blocking ks)) g) h -> wait_at i ks = [].
Proof.
  intros now dos n h v ks g i R Hin.
  assert (noted (r_new now dos) (k_new n)) as N.
  { intros j s S W. unfold at_, k_new in S. cbn [k_socks] in S. apply nth_error_In, repeat_spec in S. subst s. now elim W. }
  revert Hin. induction R as [|r k o r1 k1 y h E L R IH]; intros Hin; [destruct Hin|].
  destruct Hin as [Hin|Hin].
  - injection Hin as -> ->. cbn [rexec] in E. destruct (try_recv Edge v r k) as [[[r3 k3] w] g1] eqn:T.
    injection E as <- <- -> ->. destruct (try_blocking _ _ _ _ _ _ _ _ T) as (r4 & k4 & Po).
    destruct (polls_blocking _ _ _ _ _ _ _ Po) as (-> & Q & _ & Qr & _).
    unfold wait_at. rewrite mio_poll_at. destruct (at_ k i) as [s|] eqn:S; [|reflexivity]. cbn [option_map k_wait].
    destruct (k_wait s) eqn:W; [reflexivity|exfalso]. destruct (N i s S ltac:(congruence)) as [A|A]; [|rewrite Qr in A; destruct A].
    cbn [mio_poll snd] in Q. apply app_eq_nil in Q. destruct Q as [_ Q]. apply app_eq_nil in Q. destruct Q as [_ Q].
    pose proof (in_ready Edge _ 0 i s S A) as B. rewrite Q in B. destruct B.
  - apply IH; [|exact Hin]. destruct o as [a| |v0]; cbn [rexec] in E.
    + injection E as <- <- <-. now apply noted_arrive.
    + injection E as <- <- <-. exact N.
    + destruct (try_recv Edge v0 r k) as [[[r3 k3] w] g1] eqn:T. injection E as <- <- <-.
      eapply noted_try; eauto.
Qed.
Print Assumptions C61_edge_partial.

(** Two datagrams that come in together, with edge-triggered readiness as [mio] has it: the
    first is handed over, then the server goes to sleep although the second waits. *)
Definition quiet (t : time) : renv :=
  {| v_now := t; v_extra1 := []; v_extra2 := []; v_block := []; v_mid := []; v_scan := fun _ => [];
     v_poll_ok := true; v_err := fun _ => false; v_other_ok := true |}.
Definition srcX : sockaddr := V4 [x0a; x00; x00; x01] 9999.
Definition dg (b : byte) : dgram := ([b], srcX).
Fixpoint rplay (m : trigger) (l : list rop) (r : rstate) (k : kernel) : list (rop * rout) * rstate * kernel :=
  match l with
  | [] => ([], r, k)
  | o :: l' => let '(r1, k1, y) := rexec m o r k in
               let '(h, r2, k2) := rplay m l' r1 k1 in ((o, y) :: h, r2, k2)
  end.
Lemma rplay_run m l : forall r k h r' k', rplay m l r k = (h, r', k') -> rrun m r k h r' k'.
Proof.
  induction l as [|o l IH]; intros r k h r' k' E; cbn [rplay] in E; [injection E as <- <- <-; constructor|].
  destruct (rexec m o r k) as [[r1 k1] y] eqn:X. destruct (rplay m l r1 k1) as [[h1 r2] k2] eqn:Y.
  injection E as <- <- <-. econstructor; eauto.
Qed.
Definition burst : list rop :=
  [Recv (quiet 0); Arrive (0, dg x01); Arrive (0, dg x02); Recv (quiet 10); Recv (quiet 20)].
Theorem C61_edge_refuted : exists h r k v ks,
  rrun Edge (r_new 0 false) (k_new 1) h r k /\
  In (Recv v, ORecv (Some (Blocking ks)) (GMessage 0 (dg x02))) h /\ v_block v = [] /\ wait_at 0 ks = [dg x02].
Proof.
  destruct (rplay Edge burst (r_new 0 false) (k_new 1)) as [[h r] k] eqn:E.
  exists h, r, k, (quiet 20), {| k_socks := [{| k_wait := [dg x02]; k_edge := false; k_all := [dg x01; dg x02] |}];
                                 k_sig := false; k_sig_edge := false |}.
  split; [eapply rplay_run; exact E|]. vm_compute in E. injection E as <- <- <-.
  split; [do 4 right; left; reflexivity|]. split; reflexivity.
Qed.
Print Assumptions C61_edge_refuted.

(** The ways of the calls in a history. *)
Definition ways (h : list (rop * rout)) : list way :=
  flat_map (fun p => match snd p with ORecv (Some w) _ => [w] | _ => [] end) h.
Definition is_blocking (w : way) : bool := match w with Blocking _ => true | _ => false end.
Definition is_nonblocking (w : way) : bool := match w with NonBlocking => true | _ => false end.
Definition is_unpolled (w : way) : bool := match w with Unpolled => true | _ => false end.

(** The same arrivals one at a time meet the hypotheses of [C61_edge_partial], and the server
    does sleep in between. *)
Definition trickle : list rop :=
  [Recv (quiet 0); Arrive (0, dg x01); Recv (quiet 10); Recv (quiet 20); Arrive (0, dg x02); Recv (quiet 30)].
Fixpoint obo (l : list rop) (r : rstate) (k : kernel) : bool :=
  match l with
  | [] => true
  | o :: l' => let '(r1, k1, y) := rexec Edge o r k in
      match y with
      | ORecv _ (GMessage i _) => match wait_at i k1 with [] => true | _ => false end
      | ORecv _ GError => false
      | _ => true
      end && obo l' r1 k1
  end.
Lemma obo_spec l : forall r k, obo l r k = true -> one_by_one r k (fst (fst (rplay Edge l r k))).
Proof.
  induction l as [|o l IH]; intros r k H; [constructor|]. cbn [obo rplay] in *.
  destruct (rexec Edge o r k) as [[r1 k1] y] eqn:E. apply andb_prop in H. destruct H as [H1 H2].
  specialize (IH r1 k1 H2). destruct (rplay Edge l r1 k1) as [[h r2] k2]. cbn [fst] in *. econstructor; [exact E| |exact IH].
  destruct y as [|w [| |i d|]]; cbn; auto; [|discriminate]. now destruct (wait_at i k1).
Qed.
Definition trickled := Eval vm_compute in fst (fst (rplay Edge trickle (r_new 0 false) (k_new 1))).
Example C61_edge_nonvacuous :
  one_by_one (r_new 0 false) (k_new 1) trickled /\ read_from 0 trickled = [dg x01; dg x02] /\
  existsb is_blocking (ways trickled) = true.
Proof.
  split; [|split; vm_compute; reflexivity].
  replace trickled with (fst (fst (rplay Edge trickle (r_new 0 false) (k_new 1)))) by (vm_compute; reflexivity).
  apply obo_spec. vm_compute. reflexivity.
Qed.
Example C61_level_nonvacuous : exists r k ks g,
  try_recv Level (quiet 20) (set_long true (set_drained true (r_new 0 false))) (k_new 1) = (r, k, Some (Blocking ks), g).
Proof. repeat eexists. Qed.
Example C60_nonvacuous : forall m,
  let '(h, r, k) := rplay m burst (r_new 0 false) (k_new 1) in read_from 0 h = [dg x01; dg x02] /\ wait_at 0 k = [].
Proof. intros []; vm_compute; auto. Qed.

(** * C62 *)

(** A flood on the first socket keeps the others from ever being looked at. *)
Definition flooded (d : dgram) (t : time) : renv :=
  {| v_now := t; v_extra1 := []; v_extra2 := []; v_block := []; v_mid := []; v_scan := fun i => if Nat.eqb i 0 then [(0, d)] else [];
     v_poll_ok := true; v_err := fun _ => false; v_other_ok := true |}.
Definition starving (d1 : dgram) (r : rstate) (k : kernel) : Prop :=
  r_drained r = false /\ r_queue r = [] /\ k_sig k = false /\
  exists s0 s1 rest, k_socks k = s0 :: s1 :: rest /\ k_wait s0 = [] /\ k_wait s1 = [d1].
Lemma starve_step m d d1 t r k : starving d1 r k ->
  exists r' k', try_recv m (flooded d t) r k = (r', k', Some Unpolled, GMessage 0 (trim d)) /\ starving d1 r' k'.
Proof.
  intros (D & Q & Sg & s0 & s1 & rest & Es & W0 & W1).
  unfold try_recv, polls. rewrite D, Q. cbn [negb orb].
  set (r1 := load_status _ _).
  assert (r_queue r1 = []) as Q1.
  { unfold r1, load_status. cbn [set_counts r_dos r_last]. destruct (r_dos r); [exact Q|]. destruct (_ <? _)%Z; exact Q. }
  rewrite Q1. cbn [flooded v_mid arrives fold_left handle_queue]. unfold recv_signal. rewrite Sg, Es.
  cbn [length scan flooded v_scan Nat.eqb arrives fold_left].
  unfold arrive. cbn [fst snd]. rewrite Es. cbn [nth_error upd].
  unfold recv_sock. cbn [flooded v_err k_socks nth_error k_wait]. rewrite W0. cbn [app upd].
  eexists _, _. split; [reflexivity|]. split; [reflexivity|]. split; [reflexivity|]. split; [exact Sg|].
  cbn [k_socks]. eexists _, s1, rest. split; [reflexivity|]. split; [reflexivity|exact W1].
Qed.
Theorem C62_starved_refuted : forall m d d1 (ts : list time), exists pre h r k,
  rrun m (r_new 0 false) (k_new 2) (pre ++ h) r k /\ length h = length ts /\
  (forall o y, In (o, y) h -> exists t w, o = Recv (flooded d t) /\ y = ORecv w (GMessage 0 (trim d))) /\
  all_at 1 k = [d1] /\ wait_at 1 k = [d1] /\ read_from 1 (pre ++ h) = [].
Proof.
  intros m d d1 ts.
  set (r0 := r_new 0 false). set (k0 := arrive (1, d1) (k_new 2)).
  assert (starving d1 r0 k0) as S0.
  { split; [reflexivity|]. split; [reflexivity|]. split; [reflexivity|]. eexists _, _, _. repeat split; reflexivity. }
  assert (forall r k, starving d1 r k -> exists h r' k', rrun m r k h r' k' /\ length h = length ts /\
    (forall o y, In (o, y) h -> exists t w, o = Recv (flooded d t) /\ y = ORecv w (GMessage 0 (trim d))) /\ starving d1 r' k') as G.
  { induction ts as [|t ts IH]; intros r k S.
    - exists [], r, k. split; [constructor|]. split; [reflexivity|]. split; [intros o y []|exact S].
    - destruct (starve_step m d d1 t r k S) as (r1 & k1 & E & S1). destruct (IH r1 k1 S1) as (h & r2 & k2 & R & L & F & S2).
      exists ((Recv (flooded d t), ORecv (Some Unpolled) (GMessage 0 (trim d))) :: h), r2, k2.
      split; [econstructor; [cbn [rexec]; rewrite E; reflexivity|exact R]|]. split; [cbn; now rewrite L|].
      split; [|exact S2]. intros o y [H|H]; [injection H as <- <-; eauto|eauto]. }
  destruct (G r0 k0 S0) as (h & r & k & R & L & F & S).
  assert (rrun m (r_new 0 false) (k_new 2) ((Arrive (1, d1), ONothing) :: h) r k) as R1.
  { econstructor; [reflexivity|exact R]. }
  exists [(Arrive (1, d1), ONothing)], h, r, k. split; [exact R1|]. split; [exact L|]. split; [exact F|].
  assert (wait_at 1 k = [d1]) as W.
  { destruct S as (_ & _ & _ & s0 & s1 & rest & Es & _ & W1). unfold wait_at, at_. now rewrite Es. }
  assert (read_from 1 ((Arrive (1, d1), ONothing) :: h) = []) as Rd.
  { change (read_from 1 h = []). clear - F. induction h as [|[o y] h IH]; [reflexivity|].
    destruct (F o y (or_introl eq_refl)) as (t & w & _ & ->). cbn. apply IH. intros; apply F; now right. }
  split; [|split; [exact W|exact Rd]].
  enough (forall r1 k1 r2 k2 h, rrun m r1 k1 h r2 k2 ->
     (forall o y, In (o, y) h -> exists t w, o = Recv (flooded d t) /\ y = ORecv w (GMessage 0 (trim d))) ->
     starving d1 r1 k1 -> all_at 1 k2 = all_at 1 k1) as A.
  { rewrite (A _ _ _ _ _ R F S0). reflexivity. }
  clear. intros r1 k1 r2 k2 h R. induction R as [|r k o r1 k1 y h r2 k2 E R IH]; intros F S; [reflexivity|].
  destruct (F o y (or_introl eq_refl)) as (t & w & -> & ->). cbn [rexec] in E.
  destruct (starve_step m d d1 t r k S) as (r3 & k3 & E3 & S3).
  assert (all_at 1 k3 = all_at 1 k) as A3.
  { revert E3. destruct S as (D & Q & Sg & s0 & s1 & rest & Es & W0 & W1).
    unfold try_recv, polls. rewrite D, Q. cbn [negb orb]. set (r1' := load_status _ _).
    assert (r_queue r1' = []) as Q1.
    { unfold r1', load_status. cbn [set_counts r_dos r_last]. destruct (r_dos r); [exact Q|]. destruct (_ <? _)%Z; exact Q. }
    rewrite Q1. cbn [flooded v_mid arrives fold_left handle_queue]. unfold recv_signal. rewrite Sg, Es.
    cbn [length scan flooded v_scan Nat.eqb arrives fold_left].
    unfold arrive. cbn [fst snd]. rewrite Es. cbn [nth_error upd].
    unfold recv_sock. cbn [flooded v_err k_socks nth_error k_wait]. rewrite W0. cbn [app upd].
    intros [= <- <-]. unfold all_at, at_. rewrite Es. reflexivity. }
  rewrite E3 in E. injection E as <- <- _. rewrite IH; [exact A3| |exact S3]. intros; apply F; now right.
Qed.
Print Assumptions C62_starved_refuted.

(** What can be said: when there are no events, a datagram has to wait only for those at sockets
    with smaller numbers. *)
Lemma scan_message v n : forall j k k' i d, scan v n j k = (k', GMessage i d) ->
  forall q, j <= q < i -> wait_at q k = [].
Proof.
  induction n as [|n IH]; intros j k k' i d E q Hq; cbn [scan] in E; [discriminate|].
  destruct (recv_sock v j _) as [k1 [[]|d1]] eqn:R; try discriminate; [|injection E as <- <- <-; lia].
  destruct (recv_sock_spec _ _ _ _ _ R) as (_ & _ & -> & W). destruct (grew_arrives (v_scan v j) k q) as [x X].
  destruct (Nat.eq_dec q j) as [->|N]; [rewrite W in X; now destruct (wait_at j k)|].
  rewrite (IH _ _ _ _ _ E q ltac:(lia)) in X. now destruct (wait_at q k).
Qed.
Theorem C62_order_partial : forall m v r k r' k' w i d j,
  try_recv m v r k = (r', k', Some w, GMessage i d) -> (w = Pass \/ w = Unpolled /\ r_queue r = []) ->
  j < i -> wait_at j k = [].
Proof.
  intros m v r k r' k' w i d j E Hw Hj. unfold try_recv in E. destruct (polls m v r k) as [[r1 k1] w1] eqn:Po.
  pose proof (grew_polls _ _ _ _ _ _ _ Po) as G1. destruct w1 as [w1|]; [|discriminate].
  assert (w1 = w) as ->.
  { destruct (handle_queue v _ _) as [[k2 q2] g2]. destruct g2; try congruence. destruct (recv_signal k2) as [k3 g3].
    destruct g3; try congruence. destruct (scan v _ 0 k3) as [k4 g4]. destruct g4; try congruence.
    destruct (v_other_ok v); congruence. }
  assert (r_queue r1 = []) as Q.
  { clear E. unfold polls in Po. destruct (_ || _) eqn:B.
    - injection Po as <- _ <-. destruct Hw as [[=]|[_ Hw]]. exact Hw.
    - destruct (negb (v_poll_ok v)); [discriminate|]. destruct (mio_poll m (v_extra1 v) k) as [k2 q2].
      destruct (r_queue (set_queue (r_queue r ++ q2) r)) eqn:Qe; [|injection Po as _ _ <-; destruct Hw as [[=]|[[=] _]]].
      destruct (negb (r_long _)); [injection Po as <- _ _; exact Qe|].
      destruct (mio_poll m (v_extra2 v) _) as [k3 q3]. injection Po as _ _ <-. destruct Hw as [[=]|[[=] _]]. }
  assert (r_queue (load_status (v_now v) r1) = []) as Q1.
  { unfold load_status. destruct (r_dos r1); [exact Q|]. destruct (_ <? _)%Z; exact Q. }
  rewrite Q1 in E. cbn [handle_queue] in E.
  destruct (recv_signal (arrives (v_mid v) k1)) as [k3 g3] eqn:Sg. pose proof (grew_sig _ _ _ Sg) as G3.
  destruct g3; try discriminate.
  2:{ unfold recv_signal in Sg. destruct (k_sig _); discriminate. }
  destruct (scan v _ 0 k3) as [k4 g4] eqn:Sc. destruct g4 as [| |i4 d4|]; try discriminate.
  { destruct (v_other_ok v); discriminate. }
  injection E as _ _ <- <-.
  assert (grew k k3) as G by exact (grew_trans _ _ _ G1 (grew_trans _ _ _ (grew_arrives (v_mid v) k1) G3)).
  destruct (G j) as [x X]. rewrite (scan_message _ _ _ _ _ _ _ Sc j ltac:(lia)) in X. now destruct (wait_at j k).
Qed.
Print Assumptions C62_order_partial.
Example C62_order_nonvacuous : exists r' k',
  try_recv Edge (quiet 1) (r_new 0 false) (arrive (1, dg x02) (k_new 2)) = (r', k', Some Unpolled, GMessage 1 (dg x02)).
Proof. repeat eexists. Qed.

(** * C63 *)

Definition count (f : way -> bool) (l : list way) : nat := length (filter f l).
Lemma count_app f a b : count f (a ++ b) = count f a + count f b.
Proof. unfold count. now rewrite filter_app, app_length. Qed.

Lemma polls_counts m v r k r' k' w : polls m v r k = (r', k', w) ->
  let l := match w with Some w => [w] | None => [] end in
  r_unpolled r' = r_unpolled r + count is_unpolled l /\
  r_nonblocking r' = r_nonblocking r + count is_nonblocking l /\
  r_blocking r' = r_blocking r + count is_blocking l /\
  r_last r' = r_last r /\ r_load r' = r_load r /\ r_dos r' = r_dos r.
Proof.
  unfold polls. intros E. destruct (_ || _); [injection E as <- <- <-; cbn; repeat split; lia|].
  destruct (negb (v_poll_ok v)); [injection E as <- <- <-; cbn; repeat split; lia|].
  destruct (mio_poll m (v_extra1 v) k) as [k1 q1].
  destruct (r_queue (set_queue _ _)); [|injection E as <- <- <-; cbn; repeat split; lia].
  destruct (negb (r_long _)); [injection E as <- <- <-; cbn; repeat split; lia|].
  destruct (mio_poll m (v_extra2 v) _) as [k2 q2]. injection E as <- <- <-; cbn; repeat split; lia.
Qed.
(** The counters, time and status of a state. *)
Definition meter (r : rstate) := (r_unpolled r, r_nonblocking r, r_blocking r, r_last r, r_load r, r_dos r).
Lemma try_meter m v r k r' k' w g : try_recv m v r k = (r', k', w, g) ->
  exists r1 k1, polls m v r k = (r1, k1, w) /\
    meter r' = meter (match w with Some _ => load_status (v_now v) r1 | None => r1 end).
Proof.
  unfold try_recv. intros E. destruct (polls m v r k) as [[r1 k1] [w1|]]; [|injection E as <- <- <- <-; eauto].
  assert (w = Some w1 /\ meter r' = meter (load_status (v_now v) r1)) as [-> H]; [|eauto].
  destruct (handle_queue v _ _) as [[k2 q2] g2].
  destruct g2; try (injection E as <- <- <- <-; auto). destruct (recv_signal k2) as [k3 g3].
  destruct g3; try (injection E as <- <- <- <-; auto). destruct (scan v _ 0 k3) as [k4 g4].
  destruct g4; try (injection E as <- <- <- <-; auto). destruct (v_other_ok v); injection E as <- <- <- <-; auto.
Qed.

(** Within half a second after the last decision the status stays; the counters count the ways
    of the calls. *)
Lemma period m r k h r1 k1 : rrun m r k h r1 k1 -> r_dos r = false ->
  (forall v y, In (Recv v, y) h -> (v_now v - r_last r <= 500000)%Z) ->
  r_dos r1 = false /\ r_last r1 = r_last r /\ r_load r1 = r_load r /\
  r_unpolled r1 = r_unpolled r + count is_unpolled (ways h) /\
  r_nonblocking r1 = r_nonblocking r + count is_nonblocking (ways h) /\
  r_blocking r1 = r_blocking r + count is_blocking (ways h).
Proof.
  intros R. induction R as [r k|r k o r1 k1 y h r2 k2 E R IH]; intros D T.
  - cbn. rewrite !Nat.add_0_r. auto 10.
  - assert (r_dos r1 = false /\ r_last r1 = r_last r /\ r_load r1 = r_load r /\
      r_unpolled r1 = r_unpolled r + count is_unpolled (ways [(o, y)]) /\
      r_nonblocking r1 = r_nonblocking r + count is_nonblocking (ways [(o, y)]) /\
      r_blocking r1 = r_blocking r + count is_blocking (ways [(o, y)])) as (D1 & L1 & S1 & U1 & N1 & B1).
    { destruct o as [a| |v]; cbn [rexec] in E.
      1,2: injection E as <- <- <-; cbn; rewrite !Nat.add_0_r; auto 10.
      destruct (try_recv m v r k) as [[[r3 k3] w] g] eqn:X. injection E as <- <- <-.
      destruct (try_meter m v r k r3 k3 w g X) as (r4 & k4 & Po & M).
      pose proof (polls_counts _ _ _ _ _ _ _ Po) as (P1 & P2 & P3 & P4 & P5 & P6).
      assert (meter r3 = meter r4) as M1.
      { rewrite M. destruct w as [w|]; [|reflexivity]. unfold load_status. rewrite P6, D, P4.
        destruct (Z.ltb_spec UPDATE_AFTER (v_now v - r_last r)) as [H|H]; [|reflexivity].
        specialize (T v _ (or_introl eq_refl)). unfold UPDATE_AFTER in H. lia. }
      unfold meter in M1. injection M1 as M1 M2 M3 M4 M5 M6. rewrite M1, M2, M3, M4, M5, M6.
      replace (ways [(Recv v, ORecv w g)]) with (match w with Some w => [w] | None => [] end) by (destruct w; reflexivity).
      rewrite P6. auto 10. }
    destruct IH as (D2 & L2 & S2 & U2 & N2 & B2); [exact D1|rewrite L1; intros v y0 H; eapply T; right; exact H|].
    rewrite L1 in L2. rewrite S1 in S2. rewrite U1 in U2. rewrite N1 in N2. rewrite B1 in B2.
    change (ways ((o, y) :: h)) with (ways ([(o, y)] ++ h)).
    assert (ways ([(o, y)] ++ h) = ways [(o, y)] ++ ways h) as -> by (unfold ways; now rewrite flat_map_app).
    rewrite !count_app. rewrite !Nat.add_assoc. auto 10.
Qed.

(** The decision: it is taken by the first call more than half a second after the last one.  The
    server is then under load if more polls found something to do at once than had to wait, or if
    nothing was polled at all because there was always something left to do.  Until then the
    status stays as it is.  Partial: that a flood is noticed within one period is false, see
    [C63_flood_unnoticed_refuted]. *)
Theorem C63_decision_partial : forall m r k h r1 k1 v r2 k2 w g,
  r_dos r = false -> r_unpolled r = 0 -> r_nonblocking r = 0 -> r_blocking r = 0 ->
  rrun m r k h r1 k1 ->
  (forall v y, In (Recv v, y) h -> (v_now v - r_last r <= 500000)%Z) ->
  (500000 < v_now v - r_last r)%Z ->
  try_recv m v r1 k1 = (r2, k2, Some w, g) ->
  let waited := count is_blocking (ways h ++ [w]) in
  let busy := count is_nonblocking (ways h ++ [w]) in
  let skipped := count is_unpolled (ways h ++ [w]) in
  r_load r1 = r_load r /\
  (r_load r2 = true <-> waited < busy \/ waited = 0 /\ busy = 0 /\ 0 < skipped) /\
  r_dos r2 = false /\ r_last r2 = v_now v /\
  r_unpolled r2 = 0 /\ r_nonblocking r2 = 0 /\ r_blocking r2 = 0.
Proof.
  intros m r k h r1 k1 v r2 k2 w g D U N B R T T2 E. cbn zeta.
  destruct (period m r k h r1 k1 R D T) as (D1 & L1 & S1 & U1 & N1 & B1).
  destruct (try_meter m v r1 k1 r2 k2 _ g E) as (r4 & k4 & Po & M).
  pose proof (polls_counts _ _ _ _ _ _ _ Po) as (P1 & P2 & P3 & P4 & P5 & P6).
  rewrite U in U1. rewrite N in N1. rewrite B in B1. cbn [Nat.add] in U1, N1, B1.
  unfold load_status in M. rewrite P6, D1, P4, L1 in M. unfold UPDATE_AFTER in M.
  rewrite (proj2 (Z.ltb_lt _ _) T2) in M.
  unfold meter in M. cbn [set_counts set_status r_unpolled r_nonblocking r_blocking r_last r_load r_dos] in M.
  injection M as M1 M2 M3 M4 M5 M6.
  split; [exact S1|]. split; [|rewrite M6, P6, D1, M4; auto].
  rewrite !count_app, M5, P1, P2, P3, U1, N1, B1.
  set (a := count is_blocking (ways h) + _). set (b := count is_nonblocking (ways h) + _). set (c := count is_unpolled (ways h) + _).
  destruct (Nat.ltb_spec 0 (a + b)); [rewrite Nat.ltb_lt|rewrite Nat.ltb_lt]; lia.
Qed.
Print Assumptions C63_decision_partial.

(** A server that was just made is not under load, whatever arrives, until half a second has passed. *)
Theorem C63_starts_unloaded : forall m now n h r k, rrun m (r_new now false) (k_new n) h r k ->
  (forall v y, In (Recv v, y) h -> (v_now v <= now + 500000)%Z) -> r_load r = false.
Proof.
  intros m now n h r k R T. destruct (period m _ _ h r k R eq_refl) as (_ & _ & L & _); [|exact L].
  intros v y H. specialize (T v y H). cbn [r_new r_last]. lia.
Qed.
Print Assumptions C63_starts_unloaded.

(** The status forced for tests. *)
Theorem C63_forced : forall m v r k r' k' w g, r_dos r = true ->
  try_recv m v r k = (r', k', Some w, g) -> r_load r' = true /\ r_dos r' = true.
Proof.
  intros m v r k r' k' w g D E. destruct (try_meter m v r k r' k' _ g E) as (r4 & k4 & Po & M).
  pose proof (polls_counts _ _ _ _ _ _ _ Po) as (_ & _ & _ & _ & _ & P6).
  unfold load_status in M. rewrite P6, D in M. unfold meter in M. cbn in M. injection M as _ _ _ _ -> ->. now rewrite P6.
Qed.
Print Assumptions C63_forced.

(** A flood is not noticed in a period in which the server had to wait once, however many
    datagrams come in afterwards. *)
Definition hot (r : rstate) (k : kernel) : Prop :=
  r_drained r = false /\ r_queue r = [] /\ k_sig k = false /\ exists s0 rest, k_socks k = s0 :: rest /\ k_wait s0 = [].
Lemma hot_step m d t r k : hot r k ->
  exists r' k', try_recv m (flooded d t) r k = (r', k', Some Unpolled, GMessage 0 (trim d)) /\ hot r' k'.
Proof.
  intros (D & Q & Sg & s0 & rest & Es & W0).
  unfold try_recv, polls. rewrite D, Q. cbn [negb orb]. set (r1 := load_status _ _).
  assert (r_queue r1 = []) as Q1.
  { unfold r1, load_status. cbn [set_counts r_dos r_last]. destruct (r_dos r); [exact Q|]. destruct (_ <? _)%Z; exact Q. }
  rewrite Q1. cbn [flooded v_mid arrives fold_left handle_queue]. unfold recv_signal. rewrite Sg, Es.
  cbn [length scan flooded v_scan Nat.eqb arrives fold_left].
  unfold arrive. cbn [fst snd]. rewrite Es. cbn [nth_error upd].
  unfold recv_sock. cbn [flooded v_err k_socks nth_error k_wait]. rewrite W0. cbn [app upd].
  eexists _, _. split; [reflexivity|]. split; [reflexivity|]. split; [reflexivity|]. split; [exact Sg|].
  cbn [k_socks]. eexists _, rest. split; reflexivity.
Qed.
Lemma hot_run m d ts : forall r k, hot r k -> exists h r' k', rrun m r k h r' k' /\ hot r' k' /\ length h = length ts /\
  ways h = map (fun _ => Unpolled) ts /\
  (forall o y, In (o, y) h -> exists t, In t ts /\ o = Recv (flooded d t) /\ y = ORecv (Some Unpolled) (GMessage 0 (trim d))).
Proof.
  induction ts as [|t ts IH]; intros r k H.
  - exists [], r, k. split; [constructor|]. split; [exact H|]. split; [reflexivity|]. split; [reflexivity|intros o y []].
  - destruct (hot_step m d t r k H) as (r1 & k1 & E & H1). destruct (IH r1 k1 H1) as (h & r2 & k2 & R & H2 & L & Wy & F).
    exists ((Recv (flooded d t), ORecv (Some Unpolled) (GMessage 0 (trim d))) :: h), r2, k2.
    split; [econstructor; [cbn [rexec]; rewrite E; reflexivity|exact R]|]. split; [exact H2|]. split; [cbn; now rewrite L|].
    split; [cbn [map]; rewrite <- Wy; reflexivity|]. intros o y [X|X].
    + injection X as <- <-. exists t. split; [now left|auto].
    + destruct (F o y X) as (t' & I & K). exists t'. split; [now right|exact K].
Qed.
Lemma rrun_app m r k h1 r1 k1 : rrun m r k h1 r1 k1 -> forall h2 r2 k2, rrun m r1 k1 h2 r2 k2 -> rrun m r k (h1 ++ h2) r2 k2.
Proof. induction 1; intros; [assumption|]. cbn [app]. econstructor; eauto. Qed.
Definition woken (t : time) : renv :=
  {| v_now := t; v_extra1 := []; v_extra2 := []; v_block := [(0, dg x01)]; v_mid := []; v_scan := fun _ => [];
     v_poll_ok := true; v_err := fun _ => false; v_other_ok := true |}.
Definition later (t : time) : renv :=
  {| v_now := t; v_extra1 := []; v_extra2 := []; v_block := []; v_mid := [(0, dg x02)]; v_scan := fun _ => [];
     v_poll_ok := true; v_err := fun _ => false; v_other_ok := true |}.
Definition before_flood (m : trigger) := rplay m [Recv (quiet 0); Recv (woken 10); Recv (later 20)] (r_new 0 false) (k_new 1).
Theorem C63_flood_unnoticed_refuted : forall m d (ts : list time), (forall t, In t ts -> (20 <= t <= 500000)%Z) ->
  exists pre h r k r' k' w, length pre = 3 /\
    rrun m (r_new 0 false) (k_new 1) (pre ++ h) r k /\ length h = length ts /\
    (forall o y, In (o, y) h -> exists t, In t ts /\ o = Recv (flooded d t) /\ y = ORecv (Some Unpolled) (GMessage 0 (trim d))) /\
    try_recv m (flooded d 500001) r k = (r', k', w, GMessage 0 (trim d)) /\ r_load r' = false.
Proof.
  intros m d ts T. destruct (before_flood m) as [[pre r0] k0] eqn:E0.
  pose proof (rplay_run _ _ _ _ _ _ _ E0) as R0.
  assert (hot r0 k0 /\ ways pre = [Unpolled; Blocking (k_new 1); Pass] /\ length pre = 3 /\
    forall v y, In (Recv v, y) pre -> (v_now v - 0 <= 500000)%Z) as (H0 & W0 & L0 & T0).
  { clear R0. destruct m; vm_compute in E0; injection E0 as <- <- <-.
    all: split; [repeat split; eexists _, _; repeat split|]. all: split; [reflexivity|]. all: split; [reflexivity|].
    all: intros v y [X|[X|[X|[]]]]; injection X as <- _; vm_compute; discriminate. }
  destruct (hot_run m d ts r0 k0 H0) as (h & r & k & R & H & L & Wy & F).
  destruct (hot_step m d 500001 r k H) as (r' & k' & E & _).
  exists pre, h, r, k, r', k', (Some Unpolled). split; [exact L0|].
  pose proof (rrun_app _ _ _ _ _ _ R0 _ _ _ R) as R1. split; [exact R1|]. split; [exact L|]. split; [exact F|]. split; [exact E|].
  assert (forall v y, In (Recv v, y) (pre ++ h) -> (v_now v - r_last (r_new 0 false) <= 500000)%Z) as T1.
  { intros v y X. apply in_app_iff in X. destruct X as [X|X]; [apply (T0 v y X)|].
    destruct (F _ _ X) as (t & It & [= ->] & _). cbn [flooded v_now r_new r_last]. specialize (T t It). lia. }
  pose proof (C63_decision_partial m (r_new 0 false) (k_new 1) (pre ++ h) r k (flooded d 500001) r' k' Unpolled _ eq_refl eq_refl eq_refl eq_refl R1 T1 eq_refl E) as K.
  cbn zeta in K. destruct K as (_ & K & _).
  assert (ways (pre ++ h) = ways pre ++ ways h) as Ew by (unfold ways; apply flat_map_app).
    rewrite Ew, W0, Wy in K.
    destruct (r_load r'); [exfalso|reflexivity]. destruct K as [K _]. specialize (K eq_refl).
    assert (forall f, f Unpolled = false -> count f (map (fun _ : time => Unpolled) ts) = 0) as Z.
    { intros f Hf. unfold count. clear - Hf. induction ts as [|t ts IH]; [reflexivity|]. cbn [map filter]. now rewrite Hf. }
    rewrite !count_app in K. rewrite !Z in K by reflexivity. cbn in K. lia.
Qed.
Print Assumptions C63_flood_unnoticed_refuted.

(** But a period that consists of such calls only is noticed. *)
Example C63_decision_nonvacuous :
  let '(h, r, k) := rplay Edge [Recv (flooded (dg x01) 10); Recv (flooded (dg x02) 20); Recv (flooded (dg x03) 500001)]
                          (r_new 0 false) (k_new 1) in
  r_load r = true /\ length (ways h) = 3.
Proof. vm_compute. auto. Qed.

(** * C65 *)

(** Termination signals sent, and results that end the server, in a history. *)
Definition signals (h : list (rop * rout)) : nat := length (filter (fun p => match fst p with Signal => true | _ => false end) h).
Definition endings (h : list (rop * rout)) : nat :=
  length (filter (fun p => match snd p with ORecv _ GTerminate => true | _ => false end) h).

Definition sig_cost (g : got) : nat := match g with GTerminate => 1 | _ => 0 end.
Definition pend_sig (k : kernel) : nat := if k_sig k then 1 else 0.

Lemma sig_sock v i k k' x : recv_sock v i k = (k', x) -> k_sig k' = k_sig k.
Proof. intros E. now destruct (recv_sock_spec _ _ _ _ _ E) as (_ & -> & _). Qed.
Lemma sig_signal k k' g : recv_signal k = (k', g) -> pend_sig k = pend_sig k' + sig_cost g /\ (g = GTerminate \/ g = GNone /\ k_sig k = false).
Proof. unfold recv_signal, pend_sig. destruct (k_sig k) eqn:Sg; intros [= <- <-]; cbn [k_sig sig_cost]; rewrite ?Sg; auto. Qed.
Lemma sig_ready v e k k' g : recv_ready v e k = (k', g) -> pend_sig k = pend_sig k' + sig_cost g.
Proof.
  destruct e as [|i|]; cbn [recv_ready]; intros E.
  - now apply sig_signal in E.
  - destruct (recv_sock v i k) as [k1 x] eqn:R. apply sig_sock in R. unfold pend_sig.
    destruct x as [[]|d]; injection E as <- <-; rewrite R; cbn [sig_cost]; lia.
  - injection E as <- <-. destruct (v_other_ok v); cbn [sig_cost]; lia.
Qed.
Lemma sig_queue v q : forall k k' q' g, handle_queue v q k = (k', q', g) -> pend_sig k = pend_sig k' + sig_cost g.
Proof.
  induction q as [|e q IH]; intros k k' q' g E; cbn [handle_queue] in E; [injection E as <- _ <-; cbn; lia|].
  destruct (recv_ready v e k) as [k1 g1] eqn:R. apply sig_ready in R.
  destruct g1; try (injection E as <- <- <-; exact R). apply IH in E. cbn [sig_cost] in R. lia.
Qed.
Lemma sig_scan v n : forall i k k' g, scan v n i k = (k', g) -> pend_sig k = pend_sig k' /\ g <> GTerminate.
Proof.
  induction n as [|n IH]; intros i k k' g E; cbn [scan] in E; [injection E as <- <-; split; [reflexivity|discriminate]|].
  destruct (recv_sock v i _) as [k1 x] eqn:R. apply sig_sock in R. rewrite arrives_sig in R. unfold pend_sig in *.
  destruct x as [[]|d]; try (injection E as <- <-; rewrite R; split; [reflexivity|discriminate]).
  apply IH in E. now rewrite <- R.
Qed.
Lemma sig_polls m v r k r' k' w : polls m v r k = (r', k', w) -> k_sig k' = k_sig k.
Proof.
  unfold polls. destruct (_ || _); [intros [= <- <- <-]; reflexivity|]. destruct (negb (v_poll_ok v)); [intros [= <- <- <-]; reflexivity|].
  destruct (mio_poll m (v_extra1 v) k) as [k1 q1] eqn:M. apply (f_equal (fun x => k_sig (fst x))) in M. cbn in M.
  destruct (r_queue (set_queue _ _)); [|intros [= <- <- <-]; auto].
  destruct (negb (r_long _)); [intros [= <- <- <-]; auto|].
  destruct (mio_poll m (v_extra2 v) _) as [k2 q2] eqn:M2. apply (f_equal (fun x => k_sig (fst x))) in M2. cbn [mio_poll fst k_sig] in M2.
  rewrite arrives_sig in M2. intros [= <- <- <-]. congruence.
Qed.
Lemma sig_try m v r k r' k' w g : try_recv m v r k = (r', k', w, g) -> pend_sig k = pend_sig k' + sig_cost g.
Proof.
  unfold try_recv. destruct (polls m v r k) as [[r1 k1] w1] eqn:Po. apply sig_polls in Po.
  assert (pend_sig k = pend_sig k1) as P1 by (unfold pend_sig; now rewrite Po).
  destruct w1 as [w1|]; [|intros [= <- <- <- <-]; cbn [sig_cost]; lia].
  assert (pend_sig k1 = pend_sig (arrives (v_mid v) k1)) as P2 by (unfold pend_sig; now rewrite arrives_sig).
  destruct (handle_queue v _ _) as [[k2 q2] g2] eqn:Hq. apply sig_queue in Hq.
  destruct g2; try (intros [= <- <- <- <-]; cbn [sig_cost] in *; lia).
  destruct (recv_signal k2) as [k3 g3] eqn:Sg. apply sig_signal in Sg. destruct Sg as [Sg _].
  destruct g3; try (intros [= <- <- <- <-]; cbn [sig_cost] in *; lia).
  destruct (scan v _ 0 k3) as [k4 g4] eqn:Sc. apply sig_scan in Sc. destruct Sc as [Sc Ng]. cbn [sig_cost] in *.
  destruct g4; try (intros [= <- <- <- <-]; cbn [sig_cost] in *; lia).
  - destruct (v_other_ok v); intros [= <- <- <- <-]; cbn [sig_cost]; lia.
  - now elim Ng.
Qed.

(** The server ends only on a signal: each ending has a signal of its own before it. *)
Theorem C65_only_on_signal : forall m now dos n h r k,
  rrun m (r_new now dos) (k_new n) h r k -> endings h <= signals h.
Proof.
  intros m now dos n h r k R.
  assert (forall r0 k0, rrun m r0 k0 h r k -> endings h + pend_sig k <= signals h + pend_sig k0) as G.
  { clear R. intros r0 k0 R. induction R as [r0 k0|r0 k0 o r1 k1 y h r2 k2 E R IH]; [reflexivity|].
    unfold endings, signals in *. cbn [filter fst snd]. destruct o as [a| |v]; cbn [rexec] in E.
    - injection E as <- <- <-. cbn [length]. assert (pend_sig (arrive a k0) = pend_sig k0) by (unfold pend_sig; now rewrite arrive_sig). lia.
    - injection E as <- <- <-. cbn [length]. unfold pend_sig in *. cbn [signal k_sig] in IH. destruct (k_sig k0); lia.
    - destruct (try_recv m v r0 k0) as [[[r3 k3] w] g] eqn:T. injection E as <- <- <-. apply sig_try in T.
      destruct g; cbn [length sig_cost] in *; lia. }
  apply G in R. unfold pend_sig in R. cbn [k_new k_sig] in R. lia.
Qed.
Print Assumptions C65_only_on_signal.

(** A call in which nothing fails and no socket is reported that is not ready. *)
Definition fine (v : renv) : Prop :=
  v_poll_ok v = true /\ (forall i, v_err v i = false) /\ v_other_ok v = true /\
  Forall (fun e => e = EvOther) (v_extra1 v) /\ Forall (fun e => e = EvOther) (v_extra2 v).
(** The results of calls one after the other. *)
Fixpoint results (m : trigger) (vs : list renv) (r : rstate) (k : kernel) : list got :=
  match vs with
  | [] => []
  | v :: vs' => let '(r', k', _, g) := try_recv m v r k in g :: results m vs' r' k'
  end.

(** An unread signal has been or will be reported. *)
Definition heard (m : trigger) (r : rstate) (k : kernel) : Prop :=
  k_sig k = true -> m = Level \/ k_sig_edge k = true \/ In EvSig (r_queue r).

Lemma edge_sock v i k k' x : recv_sock v i k = (k', x) -> k_sig_edge k' = k_sig_edge k.
Proof.
  unfold recv_sock. destruct (v_err v i); [intros [= <- <-]; reflexivity|].
  destruct (nth_error _ _) as [s|]; [|intros [= <- <-]; reflexivity]. destruct (k_wait s); intros [= <- <-]; reflexivity.
Qed.
Lemma arrive_sedge a k : k_sig_edge (arrive a k) = k_sig_edge k.
Proof. unfold arrive. now destruct (nth_error _ _). Qed.
Lemma arrives_sedge l k : k_sig_edge (arrives l k) = k_sig_edge k.
Proof. revert k. induction l as [|a l IH]; intros k; [reflexivity|]. cbn. rewrite <- (arrive_sedge a k). apply IH. Qed.
Lemma edge_signal k k' g : recv_signal k = (k', g) -> k_sig_edge k' = k_sig_edge k.
Proof. unfold recv_signal. destruct (k_sig k); intros [= <- <-]; reflexivity. Qed.
Lemma queue_edge v q : forall k k' q' g, handle_queue v q k = (k', q', g) ->
  k_sig_edge k' = k_sig_edge k /\ (In EvSig q -> k_sig k' = true -> In EvSig q') /\ (g = GNone -> q' = []) /\
  (g <> GNone -> length q' < length q) /\ (In EvSig q -> k_sig k = true -> g <> GNone).
Proof.
  induction q as [|e q IH]; intros k k' q' g E; cbn [handle_queue] in E.
  - injection E as <- <- <-. repeat split; auto. intros H; now elim H.
  - assert (forall k1 g1, recv_ready v e k = (k1, g1) -> k_sig_edge k1 = k_sig_edge k /\ (e = EvSig -> k_sig k1 = false) /\
      (e = EvSig -> k_sig k = true -> g1 <> GNone) /\ (k_sig k = true -> e <> EvSig -> k_sig k1 = true)) as A.
    { intros k1 g1 R. destruct e as [|i|]; cbn [recv_ready] in R.
      - split; [eapply edge_signal; eauto|]. unfold recv_signal in R. destruct (k_sig k) eqn:Sg; injection R as <- <-.
        + repeat split; try discriminate. intros _ H; now elim H.
        + repeat split; auto. discriminate.
      - destruct (recv_sock v i k) as [k2 x] eqn:S. pose proof (edge_sock _ _ _ _ _ S). apply sig_sock in S.
        destruct x as [[]|d]; injection R as <- <-; repeat split; try discriminate; auto; now rewrite S.
      - injection R as <- <-. repeat split; try discriminate; auto. }
    destruct (recv_ready v e k) as [k1 g1] eqn:R. destruct (A _ _ eq_refl) as (A1 & A2 & A3 & A4).
    assert (g1 <> GNone -> (k1, q, g1) = (k', q', g) -> k_sig_edge k' = k_sig_edge k /\ (In EvSig (e :: q) -> k_sig k' = true -> In EvSig q') /\ (g = GNone -> q' = []) /\
      (g <> GNone -> length q' < length (e :: q)) /\ (In EvSig (e :: q) -> k_sig k = true -> g <> GNone)) as B.
    { intros N [= <- <- <-]. split; [exact A1|]. split.
      { intros [->|H] Sk; [rewrite (A2 eq_refl) in Sk; discriminate|exact H]. }
      split; [intros; contradiction|]. split; [cbn; lia|auto]. }
    destruct g1; try (apply B; [discriminate|exact E]).
    destruct (IH _ _ _ _ E) as (B1 & B2 & B3 & B4 & B5). split; [congruence|]. split.
    { intros [->|H] Sk; [|auto]. exfalso. destruct (recv_signal k) as [k2 g2] eqn:S; cbn [recv_ready] in R.
      assert (k2 = k1 /\ g2 = GNone) as [-> ->] by (split; congruence). apply sig_queue in E.
      specialize (A2 eq_refl). unfold pend_sig in E. rewrite A2, Sk in E. lia. }
    split; [exact B3|]. split; [intros N; specialize (B4 N); cbn [length]; lia|].
    intros [->|H] Sk; [now elim (A3 eq_refl Sk)|]. destruct e as [|i|]; try (apply B5; [exact H|apply A4; [exact Sk|discriminate]]).
    now elim (A3 eq_refl Sk).
Qed.
Lemma scan_edge v n : forall i k k' g, scan v n i k = (k', g) -> k_sig_edge k' = k_sig_edge k.
Proof.
  induction n as [|n IH]; intros i k k' g E; cbn [scan] in E; [injection E as <- <-; reflexivity|].
  destruct (recv_sock v i _) as [k1 x] eqn:R. apply edge_sock in R. rewrite arrives_sedge in R.
  destruct x as [[]|d]; try (injection E as <- <-; exact R). apply IH in E. congruence.
Qed.

Lemma poll_sig m x k : k_sig k = true -> (m = Level \/ k_sig_edge k = true) -> In EvSig (snd (mio_poll m x k)).
Proof.
  intros Sg H. cbn [mio_poll snd]. apply in_app_iff. right. apply in_app_iff. left.
  destruct m; [rewrite Sg; now left|]. destruct H as [H|H]; [discriminate|]. rewrite H. now left.
Qed.
Lemma heard_polls m v r k r' k' w : heard m r k -> polls m v r k = (r', k', Some w) ->
  heard m r' k' /\ (k_sig k = true -> r_drained r = true -> r_queue r = [] -> In EvSig (r_queue r')).
Proof.
  unfold heard. intros H E. pose proof (sig_polls _ _ _ _ _ _ _ E) as Sg. rewrite Sg. revert E. unfold polls.
  destruct (negb (r_drained r) || _) eqn:B.
  { intros [= <- <- <-]. split; [exact H|]. intros _ D Q. rewrite D, Q in B. discriminate. }
  apply Bool.orb_false_iff in B. destruct B as [_ B]. destruct (r_queue r) as [|e0 q0] eqn:Q; [|discriminate].
  destruct (negb (v_poll_ok v)); [discriminate|]. cbn [set_queue r_queue app].
  destruct (mio_poll m (v_extra1 v) k) as [k1 q1] eqn:M1.
  assert (k_sig k = true -> In EvSig q1) as A.
  { intros S0. pose proof (poll_sig m (v_extra1 v) k S0) as F. rewrite M1 in F. apply F. destruct (H S0) as [?|[?|Z]]; auto; destruct Z. }
  destruct q1 as [|e q1].
  { cbn [r_queue set_queue r_long]. assert (k_sig k = true -> False) as N by (intros S0; destruct (A S0)).
    destruct (negb (r_long r)).
    - intros [= <- <- <-]. split; intros S0; now elim N.
    - destruct (mio_poll m (v_extra2 v) _) as [k2 q2]. intros [= <- <- <-]. split; intros S0; now elim N. }
  cbn [r_queue set_queue]. intros [= <- <- <-]. cbn [set_counts r_queue]. split; auto.
Qed.
Lemma load_queue now r : r_queue (load_status now r) = r_queue r.
Proof. unfold load_status. destruct (r_dos r); [reflexivity|]. now destruct (_ <? _)%Z. Qed.

(** One call, when a signal is there: the server ends, or the call fails, or there are fewer
    events left than before and the signal is still there. *)
Lemma signal_call m v r k r' k' w g : heard m r k -> try_recv m v r k = (r', k', w, g) ->
  heard m r' k' /\
  (k_sig k = true -> g = GTerminate \/ g = GError \/
    k_sig k' = true /\ exists j d, g = GMessage j d /\ exists q, length (r_queue r') < length q /\
      (r_queue r <> [] -> q = r_queue r) /\ (r_drained r = false -> q = r_queue r) /\
      (r_queue r = [] -> r_drained r = true -> q = snd (mio_poll m (v_extra1 v) k) /\
        exists k2, handle_queue v q k2 = (k', r_queue r', g) /\ k_sig k2 = true)).
Proof.
  intros H. unfold try_recv. destruct (polls m v r k) as [[r1 k1] w1] eqn:Po.
  destruct w1 as [w1|].
  2:{ intros [= <- <- <- <-]. split; [|auto]. revert Po. unfold polls. destruct (_ || _); [discriminate|].
      destruct (negb _); [intros [= <- <-]; exact H|]. destruct (mio_poll m _ k) as [k2 q2].
      destruct (r_queue _); [|discriminate]. destruct (negb _); [discriminate|]. try (destruct (mio_poll m _ _)); discriminate. }
  destruct (heard_polls _ _ _ _ _ _ _ H Po) as (H1 & Hq1). pose proof (sig_polls _ _ _ _ _ _ _ Po) as Sg.
  destruct (handle_queue v _ _) as [[k2 q2] g2] eqn:Hq. rewrite load_queue in Hq.
  destruct (queue_edge _ _ _ _ _ _ Hq) as (Q1 & Q2 & Q3 & Q4 & Q5). pose proof (sig_queue _ _ _ _ _ _ Hq) as Qs.
  rewrite arrives_sedge in Q1. rewrite arrives_sig in Q5.
  assert (k_sig k2 = true -> k_sig k1 = true) as Mono.
  { intros S2. unfold pend_sig in Qs. rewrite S2, arrives_sig in Qs. destruct (k_sig k1); [reflexivity|lia]. }
  assert (heard m (set_queue q2 (load_status (v_now v) r1)) k2) as H2.
  { unfold heard. intros S2. cbn [set_queue r_queue]. destruct (H1 (Mono S2)) as [?|[?|?]]; auto. right; left. congruence. }
  destruct g2.
  - assert (q2 = []) as -> by auto.
    destruct (recv_signal k2) as [k3 g3] eqn:S3. pose proof (edge_signal _ _ _ S3) as E3. pose proof (sig_signal _ _ _ S3) as (P3 & G3).
    destruct G3 as [-> | (-> & S2)].
    + intros [= <- <- <- <-]. split; [|auto]. intros S0. unfold pend_sig in P3. rewrite S0 in P3. cbn [sig_cost] in P3. destruct (k_sig k2); lia.
    + assert (k_sig k = false) as N.
      { unfold pend_sig in Qs. rewrite S2, arrives_sig, Sg in Qs. cbn [sig_cost] in Qs. destruct (k_sig k); [lia|reflexivity]. }
      assert (forall k', pend_sig k' = pend_sig k3 -> k_sig k' = true -> False) as N'.
      { intros k0 Ek S0. unfold pend_sig in *. rewrite S0 in Ek. rewrite S2 in P3. cbn [sig_cost] in P3. destruct (k_sig k3); lia. }
      destruct (scan v _ 0 k3) as [k4 g4] eqn:Sc. apply sig_scan in Sc. destruct Sc as [Sc Ng].
      assert (forall r0 g0, (r0, k4, Some w1, g0) = (r', k', w, g) -> heard m r' k' /\ (k_sig k = true -> False)) as K.
      { intros r0 g0 [= <- <- <- <-]. split; [intros S0; now elim (N' k4)|]. rewrite N. discriminate. }
      rewrite N in *. destruct g4.
      * destruct (v_other_ok v); intros E; apply K in E; destruct E; split; auto; discriminate.
      * now elim Ng.
      * intros E; apply K in E; destruct E; split; auto; discriminate.
      * intros E; apply K in E; destruct E; split; auto; discriminate.
  - intros [= <- <- <- <-]. auto.
  - intros [= <- <- <- <-]. split; [exact H2|]. intros S0. right. right. split.
    { unfold pend_sig in Qs. rewrite arrives_sig, Sg, S0 in Qs. cbn [sig_cost] in Qs. destruct (k_sig k2); [reflexivity|lia]. }
    exists i, d. split; [reflexivity|]. exists (r_queue r1). cbn [set_queue r_queue]. split; [apply Q4; discriminate|].
    revert Po. unfold polls. destruct (negb (r_drained r) || _) eqn:B.
    + intros [= <- <- <-]. cbn [set_counts r_queue]. split; [auto|]. split; [auto|]. intros Q D. rewrite Q, D in B. discriminate.
    + apply Bool.orb_false_iff in B. destruct B as [B1 B]. apply Bool.negb_false_iff in B1. destruct (r_queue r) as [|e0 q0] eqn:Q; [|discriminate].
      destruct (negb (v_poll_ok v)); [discriminate|]. cbn [set_queue r_queue app].
      destruct (mio_poll m (v_extra1 v) k) as [k4 q4] eqn:M1.
      assert (In EvSig q4) as A.
      { pose proof (poll_sig m (v_extra1 v) k S0) as F. rewrite M1 in F. apply F. destruct (H S0) as [?|[?|Z]]; auto. rewrite Q in Z. destruct Z. }
      destruct q4 as [|e4 q4]; [destruct A|]. cbn [set_queue r_queue]. intros [= <- <- <-]. cbn [set_counts r_queue set_queue] in *.
      rewrite B1. repeat split; auto; try (intros N; now elim N); try discriminate.
      exists (arrives (v_mid v) k4). split; [exact Hq|]. now rewrite arrives_sig, Sg.
  - intros [= <- <- <- <-]. auto.
Qed.

(** What is handled before the signal in a fresh batch of events is the other sources. *)
Lemma others_first v l : forall q k k' q' g, Forall (fun e => e = EvOther) l -> v_other_ok v = true -> k_sig k = true ->
  handle_queue v (l ++ EvSig :: q) k = (k', q', g) -> g = GTerminate.
Proof.
  induction l as [|e l IH]; intros q k k' q' g F O Sg E; cbn [List.app handle_queue recv_ready] in E.
  - unfold recv_signal in E. rewrite Sg in E. now injection E as _ _ <-.
  - inversion F; subst. cbn [recv_ready] in E. rewrite O in E. eapply IH; eauto.
Qed.

(** A signal is acted upon at once, or after the events already reported: at most as many calls
    later as there are such events, however many datagrams arrive. *)
Theorem C65_signal_heard : forall m now dos n h r k vs,
  rrun m (r_new now dos) (k_new n) h r k -> k_sig k = true -> Forall fine vs ->
  length (r_queue r) < length vs -> ~ In GError (results m vs r k) -> In GTerminate (results m vs r k).
Proof.
  intros m now dos n h r k vs R.
  assert (heard m r k) as H.
  { assert (forall r0 k0, rrun m r0 k0 h r k -> heard m r0 k0 -> heard m r k) as G.
    { clear R. intros r0 k0 R. induction R as [r0 k0|r0 k0 o r1 k1 y h r2 k2 E R IH]; intros H; [exact H|].
      apply IH. destruct o as [a| |v]; cbn [rexec] in E.
      - injection E as <- <- <-. unfold heard in *. rewrite arrive_sig, arrive_sedge. exact H.
      - injection E as <- <- <-. intros _. right; left; reflexivity.
      - destruct (try_recv m v r0 k0) as [[[r3 k3] w] g] eqn:T. injection E as <- <- <-. eapply signal_call; eauto. }
    apply (G _ _ R). intros Z. discriminate. }
  clear R. revert r k H. induction vs as [|v vs IH]; intros r k H Sg F L Ne; [cbn in L; lia|].
  cbn [results] in *. destruct (try_recv m v r k) as [[[r' k'] w] g] eqn:T.
  destruct (signal_call _ _ _ _ _ _ _ _ H T) as (H' & C). specialize (C Sg).
  inversion F as [|? ? Fv Fvs]; subst. destruct C as [-> | [-> | (Sg' & j & d & -> & q & Lq & Qn & Qd & Qb)]].
  - now left.
  - elim Ne. now left.
  - right. apply IH; auto; [|intros Z; apply Ne; now right]. cbn [length] in L.
    destruct (r_queue r) as [|e0 q0] eqn:Q.
    + destruct (r_drained r) eqn:D.
      * exfalso. destruct (Qb eq_refl eq_refl) as (-> & k2 & Hq & S2).
        destruct Fv as (_ & _ & Oo & E1 & _).
        assert (exists q, snd (mio_poll m (v_extra1 v) k) = v_extra1 v ++ EvSig :: q) as [q Eq].
        { cbn [mio_poll snd]. destruct m; [rewrite Sg; eexists; reflexivity|].
          destruct (H Sg) as [Z|[Z|Z]]; [discriminate| |rewrite Q in Z; destruct Z]. rewrite Z. eexists. reflexivity. }
        rewrite Eq in Hq. apply others_first in Hq; auto. discriminate.
      * rewrite (Qd eq_refl) in Lq. cbn in Lq. lia.
    + rewrite (Qn ltac:(discriminate)) in Lq. cbn [length] in *. lia.
Qed.
Print Assumptions C65_signal_heard.

(** Three datagrams at two sockets, one of them handed over, and then a signal: two events are
    pending, and the server ends with the second call although a datagram waits. *)
Definition busy : list rop :=
  [Recv (quiet 0); Arrive (0, dg x01); Arrive (1, dg x02); Arrive (1, dg x03); Recv (quiet 10); Signal].
Example C65_nonvacuous : forall m, exists h r k,
  rrun m (r_new 0 false) (k_new 2) h r k /\ k_sig k = true /\ length (r_queue r) = 1 /\
  Forall fine [quiet 20; quiet 30] /\ results m [quiet 20; quiet 30] r k = [GMessage 1 (dg x02); GTerminate] /\
  signals h = 1 /\ endings (h ++ [(Recv (quiet 30), ORecv None GTerminate)]) = 1.
Proof.
  intros m. destruct (rplay m busy (r_new 0 false) (k_new 2)) as [[h r] k] eqn:E. exists h, r, k.
  split; [eapply rplay_run; exact E|]. split; [|split; [|split; [|split; [|split]]]].
  1,2,4,5,6: destruct m; vm_compute in E; injection E as <- <- <-; vm_compute; reflexivity.
  repeat constructor.
Qed.
