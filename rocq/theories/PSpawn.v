(** Properties of the connection to the broker and of the processes of the broker: C101. *)
From Coq Require Import ZArith.
From Verif Require Import Base Fds PFds Spawn.

Lemma exec_some t n f c : exec t n = Some (f, c) <-> t n = Some (f, false) /\ c = false.
Proof. unfold exec. destruct (t n) as [[g []]|]; split; intros H; try discriminate; try (destruct H; discriminate); [split; congruence|destruct H; subst; congruence]. Qed.
Lemma ends_differ i j k k' : end_a i k <> end_b j k'.
Proof. unfold end_a, end_b. intros H. assert (2 * i = 2 * j + 1) by congruence. lia. Qed.
Lemma other_b i k : other (end_b i k) = end_a i k.
Proof. unfold other, end_a, end_b. rewrite (Nat.add_comm (2 * i) 1), Nat.even_add_mul_2. cbn [Nat.even]. f_equal. lia. Qed.
Lemma other_a i k : other (end_a i k) = end_b i k.
Proof. unfold other, end_a, end_b. rewrite Nat.even_mul. reflexivity. Qed.
Lemma nonblock_tab k k' e : set_nonblocking k = (k', e) -> tab k' = tab k /\ limit k' = limit k.
Proof. apply fault_tab. Qed.
Lemma open_ok k f c k' n : open_fd k f c = (k', Ok n) -> n < limit k /\ tab k n = None /\ tab k' = upd (tab k) n (Some (f, c)).
Proof.
  unfold open_fd. destruct (fault k) as [k1 e] eqn:F. apply fault_tab in F. destruct F as [F1 F2]. rewrite F1, F2. destruct e; [discriminate|].
  destruct (lowest (tab k) 0 (limit k)) as [m|] eqn:L; [|discriminate]. intros H. apply lowest_some in L. assert (m = n) by congruence. subst m.
  split; [lia|]. split; [apply L|]. assert (E : k' = with_tab k1 (upd (tab k) n (Some (f, c)))) by congruence. now subst.
Qed.
Lemma open_err k f c k' e : open_fd k f c = (k', Err e) -> tab k' = tab k.
Proof.
  unfold open_fd. destruct (fault k) as [k1 e1] eqn:F. apply fault_tab in F. destruct F as [F1 F2]. destruct e1; [intros H; assert (k' = k1) by congruence; now subst|].
  destruct (lowest _ _ _); [discriminate|]. intros H. assert (k' = k1) by congruence. now subst.
Qed.
Lemma pair_ok i c k k' a b : socketpair i c k = (k', Ok (a, b)) ->
  a < b < limit k /\ tab k a = None /\ tab k b = None /\ limit k' = limit k /\ (forall m, m < a -> tab k m <> None) /\
  tab k' = upd (upd (tab k) a (Some (end_a i KUnixStream, c))) b (Some (end_b i KUnixStream, c)).
Proof.
  unfold socketpair. destruct (fault k) as [k1 e] eqn:F. apply fault_tab in F. destruct F as [F1 F2]. rewrite F1, F2. destruct e; [discriminate|].
  destruct (lowest (tab k) 0 (limit k)) as [m|] eqn:L; [|discriminate].
  destruct (lowest (upd (tab k) m _) 0 (limit k)) as [m'|] eqn:L'; [|discriminate]. intros H. assert (m = a) by congruence. assert (m' = b) by congruence. subst m m'.
  assert (E : k' = with_tab k1 (upd (upd (tab k) a (Some (end_a i KUnixStream, c))) b (Some (end_b i KUnixStream, c)))) by congruence. subst k'.
  assert (B : forall m, m < a -> tab k m <> None).
  { clear -L. assert (G : forall n i, lowest (tab k) i n = Some a -> forall m, i <= m < a -> tab k m <> None); [|intros m M; eapply G; eauto; lia].
    induction n as [|n IH]; intros i H m M; cbn [lowest] in H; [discriminate|]. destruct (tab k i) eqn:E; [|assert (i = a) by congruence; lia].
    destruct (Nat.eq_dec i m) as [<-|]; [congruence|]. apply (IH _ H). lia. }
  apply lowest_some in L. apply lowest_some in L'. destruct L as [La Ta]. destruct L' as [Lb Tb].
  assert (b <> a) by (intros ->; rewrite upd_same in Tb; discriminate). rewrite upd_other in Tb by assumption.
  assert (~ b < a) by (intros X; exact (B _ X Tb)). repeat split; auto; lia.
Qed.
Lemma pair_err i c k k' r : socketpair i c k = (k', r) -> (forall x, r <> Ok x) -> tab k' = tab k /\ r <> Panic.
Proof.
  unfold socketpair. destruct (fault k) as [k1 e] eqn:F. apply fault_tab in F. destruct F as [F1 F2]. rewrite F1, F2.
  destruct e; [intros H _; assert (k' = k1) by congruence; subst; split; congruence|].
  destruct (lowest (tab k) 0 (limit k)) as [m|]; [|intros H _; assert (k' = k1) by congruence; subst; split; congruence].
  destruct (lowest _ 0 (limit k)) as [m'|]; [intros H N; destruct (N (m, m')); congruence|intros H _; assert (k' = k1) by congruence; subst; split; congruence].
Qed.
(** What the child starts with: its connection, and what is not marked in the parent *)
Lemma map_ok t l p t' : map_fds t l p = Ok t' -> exists f c, t p = Some (f, c) /\ CHILD_FD < l /\
  forall n, exec t' n = if Nat.eqb n CHILD_FD then Some (f, false) else exec t n.
Proof.
  unfold map_fds. destruct (t p) as [[f c]|] eqn:T; [|discriminate]. destruct (Nat.leb_spec l CHILD_FD) as [?|L]; [discriminate|].
  destruct (Nat.eqb_spec p CHILD_FD) as [->|N].
  - destruct (lowest _ _ _) as [tmp|] eqn:Lo; [|discriminate]. apply lowest_some in Lo. destruct Lo as [Lt Tt]. intros H.
    assert (E : t' = upd (upd (upd t tmp (Some (f, true))) CHILD_FD None) CHILD_FD (Some (f, false))) by congruence. subst t'.
    exists f, c. split; [reflexivity|]. split; [exact L|]. intros n. unfold exec, upd. destruct (Nat.eqb_spec n CHILD_FD) as [->|M]; [reflexivity|].
    destruct (Nat.eqb_spec n tmp) as [->|]; [now rewrite Tt|reflexivity].
  - intros H. assert (E : t' = upd t CHILD_FD (Some (f, false))) by congruence. subst t'. exists f, c. split; [reflexivity|]. split; [exact L|].
    intros n. unfold exec, upd. destruct (Nat.eqb_spec n CHILD_FD) as [->|M]; reflexivity.
Qed.

(** * C101: the choice *)

(** C101: at most one way to the broker can be asked for, and it is the one that is used; without any, rosenpass sets keys itself *)
Theorem C101_choice : forall a,
  (forall p, a_path a = Some p -> a_fd a = None -> a_spawn a = false -> chosen a = Ok (Some (ISocket p))) /\
  (forall z, a_path a = None -> a_fd a = Some z -> a_spawn a = false -> chosen a = Ok (Some (IFd z))) /\
  (a_path a = None -> a_fd a = None -> a_spawn a = true -> chosen a = Ok (Some IPair)) /\
  (a_path a = None -> a_fd a = None -> a_spawn a = false -> chosen a = Ok None) /\
  (forall x, chosen a = Ok x -> (a_path a = None \/ a_fd a = None) /\ (a_path a = None \/ a_spawn a = false) /\ (a_fd a = None \/ a_spawn a = false)).
Proof.
  intros [[p|] [z|] [|]]; unfold chosen, get_broker_interface; cbn; repeat split; intros; try discriminate; try congruence; auto.
Qed.
Print Assumptions C101_choice.

(** * C101: the connection *)

(** C101: a connection that is made by a path or taken from the one who started rosenpass is not passed on: no program that rosenpass starts
    later gets a descriptor of it.  [f] is the connection, to which nothing but the number that was given, if any, refers before. *)
Theorem C101_not_passed_on : forall conn i k x k' c n f,
  get_broker_socket conn i k x = (k', c, Ok n) -> x <> IPair ->
  (forall p, x = ISocket p -> f = conn p) -> (forall z, x = IFd z -> exists b, refers k z (f, b)) ->
  (forall m b, tab k m = Some (f, b) -> x = IFd (Z.of_nat m)) -> f <> Null ->
  c = None /\ tab k' n = Some (f, true) /\ (forall m b, tab k' m = Some (f, b) -> m = n) /\ forall m b, exec (tab k') m <> Some (f, b).
Proof.
  intros conn i k x k' c n f H NP Fp Fz On NN. destruct x as [p|z|]; [| |contradiction]; cbn [get_broker_socket] in H.
  - specialize (Fp p eq_refl). destruct (open_fd k (conn p) true) as [k1 r] eqn:O. assert (r = Ok n) by congruence. subst r. apply open_ok in O. destruct O as (_ & Fr & T).
    assert (k' = k1) by congruence. assert (c = None) by congruence. subst k1 c f. split; [reflexivity|].
    assert (A : forall m b, tab k' m = Some (conn p, b) -> m = n).
    { intros m b E. rewrite T in E. destruct (Nat.eq_dec m n) as [->|N]; [reflexivity|]. rewrite upd_other in E by assumption. apply On in E. discriminate. }
    assert (B : tab k' n = Some (conn p, true)) by (rewrite T; apply upd_same). split; [exact B|]. split; [exact A|].
    intros m b E. apply exec_some in E. destruct E as [E _]. rewrite (A _ _ E), B in E. discriminate.
  - destruct (claim_fd k z) as [k1 r] eqn:C. destruct r as [n1|e|]; [|discriminate|discriminate]. destruct (set_nonblocking k1) as [k2 e] eqn:S.
    destruct e; [discriminate|]. assert (n1 = n) by congruence. assert (k2 = k') by congruence. assert (c = None) by congruence. subst n1 k2 c.
    apply nonblock_tab in S. destruct S as [S _]. apply C81_claim_partial in C. destruct C as (_ & Fr & f' & b & R & Tn & [Z0 Rz] & Ot).
    destruct (Fz z eq_refl) as (b' & _ & R'). destruct R as [_ R]. assert (f' = f) by congruence. subst f'. split; [reflexivity|].
    assert (A : forall m b, tab k' m = Some (f, b) -> m = n).
    { intros m b0 E. rewrite S in E. destruct (Nat.eq_dec m n) as [->|N]; [reflexivity|]. exfalso. destruct (Z.eq_dec (Z.of_nat m) z) as [<-|M].
      - rewrite Nat2Z.id, E in Rz. congruence.
      - rewrite Ot in E by assumption. apply On in E. congruence. }
    assert (B : tab k' n = Some (f, true)) by (rewrite S; exact Tn). split; [exact B|]. split; [exact A|].
    intros m b0 E. apply exec_some in E. destruct E as [E _]. rewrite (A _ _ E), B in E. discriminate.
Qed.
Print Assumptions C101_not_passed_on.

(** C101: a broker that is started gets the other end of the connection of rosenpass as its descriptor 3.  Its other descriptors are
    those of rosenpass that are not marked close-on-exec, or ends of the connection.  Partial: it should get no end but its own, see
    [C101_own_end_refuted] *)
Theorem C101_spawned_partial : forall conn i k k' t n,
  get_broker_socket conn i k IPair = (k', Some t, Ok n) ->
  (tab k n = None /\ tab k' n = Some (end_a i KUnixStream, false) /\ (forall m, m <> n -> tab k' m = tab k m)) /\
  t CHILD_FD = Some (end_b i KUnixStream, false) /\
  (forall m f c, m <> CHILD_FD -> t m = Some (f, c) ->
     c = false /\ (tab k m = Some (f, false) \/ f = end_a i KUnixStream \/ f = end_b i KUnixStream)) /\
  (forall m f, m <> CHILD_FD -> tab k m = Some (f, false) -> t m = Some (f, false)).
Proof.
  intros conn i k k' t n H. cbn [get_broker_socket] in H. destruct (socketpair i false k) as [k1 r] eqn:P. destruct r as [[a b]|e|]; [|discriminate|discriminate].
  apply pair_ok in P. destruct P as (L & Ta & Tb & Li & _ & T). destruct (set_nonblocking k1) as [k2 e] eqn:S. destruct e; [discriminate|].
  apply nonblock_tab in S. destruct S as [S SL]. unfold spawn in H. destruct (fault k2) as [k3 e] eqn:F. apply fault_tab in F. destruct F as [F FL].
  destruct e; [discriminate|]. destruct (map_fds (tab k3) (limit k3) b) as [t'|e|] eqn:M; [|discriminate|discriminate].
  assert (n = a) by congruence. assert (t = exec t') by congruence. assert (Ek : k' = close k3 (Z.of_nat b)) by congruence. subst n t k'.
  apply map_ok in M. destruct M as (f & c & Tp & _ & Ex). rewrite F, S, T in Tp. rewrite upd_same in Tp. assert (f = end_b i KUnixStream) by congruence. subst f.
  split; [split; [exact Ta|split]|split; [|split]].
  - rewrite close_tab, F, S, T. rewrite !upd_other by lia. apply upd_same.
  - intros m Nm. rewrite close_tab, F, S, T. unfold upd. destruct (Nat.eqb_spec m b) as [->|]; [now rewrite Tb|].
    destruct (Nat.eqb_spec m a) as [->|]; [contradiction|reflexivity].
  - rewrite Ex, Nat.eqb_refl. reflexivity.
  - intros m f c' N E. rewrite Ex, (proj2 (Nat.eqb_neq _ _) N) in E. apply exec_some in E. destruct E as [E ->]. split; [reflexivity|].
    rewrite F, S, T in E. unfold upd in E. destruct (Nat.eqb m b); [right; right; congruence|]. destruct (Nat.eqb m a); [right; left; congruence|left; exact E].
  - intros m f N E. rewrite Ex, (proj2 (Nat.eqb_neq _ _) N). apply exec_some. split; [|reflexivity]. rewrite F, S, T.
    rewrite !upd_other by congruence. exact E.
Qed.
Print Assumptions C101_spawned_partial.

(** C101: when there is no connection nothing is left of the attempt: there is no process and no new descriptor; only a number that was given is
    then possibly /dev/null *)
Theorem C101_failed : forall conn i k x k' c e,
  get_broker_socket conn i k x = (k', c, Err e) ->
  c = None /\ forall m, tab k' m = tab k m \/ x = IFd (Z.of_nat m) /\ tab k' m = Some (Null, true).
Proof.
  intros conn i k x k' c e H. destruct x as [p|z|]; cbn [get_broker_socket] in H.
  - destruct (open_fd k (conn p) true) as [k1 r] eqn:O. assert (r = Err e) by congruence. assert (k1 = k') by congruence. subst. apply open_err in O.
    split; [congruence|]. intros m. left. now rewrite O.
  - destruct (claim_fd k z) as [k1 r] eqn:C. destruct r as [n1|e1|]; [|split; [congruence|]; intros m; left; assert (k1 = k') by congruence; subst; eapply C81_claim_failed; eauto|discriminate].
    destruct (set_nonblocking k1) as [k2 e2] eqn:S. destruct e2; [|discriminate]. assert (k' = close k2 (Z.of_nat n1)) by congruence. split; [congruence|]. subst k'.
    apply nonblock_tab in S. destruct S as [S _]. apply C81_claim_partial in C. destruct C as (_ & Fr & f' & b & R & Tn & [Z0 Rz] & Ot).
    intros m. rewrite close_tab, S. unfold upd. destruct (Nat.eqb_spec m n1) as [->|N]; [left; now rewrite Fr|].
    destruct (Z.eq_dec (Z.of_nat m) z) as [<-|M]; [|left; now apply Ot]. right. rewrite Nat2Z.id in Rz. auto.
  - destruct (socketpair i false k) as [k1 r] eqn:P. destruct r as [[a b]|e1|].
    + apply pair_ok in P. destruct P as (L & Ta & Tb & Li & _ & T). destruct (set_nonblocking k1) as [k2 e2] eqn:S.
      apply nonblock_tab in S. destruct S as [S SL].
      assert (G : forall m, upd (upd (tab k1) b None) a None m = tab k m).
      { intros m. rewrite T. unfold upd. destruct (Nat.eqb_spec m a) as [->|]; [now rewrite Ta|]. destruct (Nat.eqb_spec m b) as [->|]; [now rewrite Tb|reflexivity]. }
      destruct e2.
      * split; [congruence|]. intros m. left. assert (k' = close (close k2 (Z.of_nat a)) (Z.of_nat b)) by congruence. subst k'. rewrite !close_tab, S, <- G.
        unfold upd. destruct (Nat.eqb m a), (Nat.eqb m b); reflexivity.
      * unfold spawn in H. destruct (fault k2) as [k3 e2] eqn:F. apply fault_tab in F. destruct F as [F FL].
        assert (X : k' = close (close k3 (Z.of_nat b)) (Z.of_nat a) /\ c = None).
        { destruct e2; [split; congruence|]. destruct (map_fds _ _ _); [discriminate|split; congruence|discriminate]. }
        destruct X as [-> ->]. split; [reflexivity|]. intros m. left. now rewrite !close_tab, F, S, G.
    + apply pair_err in P; [|discriminate]. split; [congruence|]. intros m. left. assert (k' = k1) by congruence. subst. now rewrite (proj1 P).
    + apply pair_err in P; [|discriminate]. now destruct P.
Qed.
Print Assumptions C101_failed.

(** * C101: the broker and the end of rosenpass *)

(** C101 refuted: if rosenpass uses the number 3 and the ones below already when it starts the broker, as it does after [AppServer::new] has opened its poll and sockets, then the broker gets the end of
    rosenpass of the connection, too *)
Theorem C101_own_end_refuted : forall conn i k k' t n,
  get_broker_socket conn i k IPair = (k', Some t, Ok n) -> (forall m, m <= CHILD_FD -> tab k m <> None) ->
  n <> CHILD_FD /\ tab k' n = Some (end_a i KUnixStream, false) /\ t n = Some (end_a i KUnixStream, false).
Proof.
  intros conn i k k' t n H U. assert (Sp := C101_spawned_partial _ _ _ _ _ _ H). destruct Sp as ((Tn & Tn' & _) & _ & _ & _).
  assert (N : n <> CHILD_FD) by (intros ->; now apply (U CHILD_FD)). split; [exact N|]. split; [exact Tn'|].
  cbn [get_broker_socket] in H. destruct (socketpair i false k) as [k1 r] eqn:P. destruct r as [[a b]|e|]; [|discriminate|discriminate].
  apply pair_ok in P. destruct P as (L & Ta & Tb & Li & _ & T). destruct (set_nonblocking k1) as [k2 e] eqn:S. destruct e; [discriminate|].
  apply nonblock_tab in S. destruct S as [S SL]. unfold spawn in H. destruct (fault k2) as [k3 e] eqn:F. apply fault_tab in F. destruct F as [F FL].
  destruct e; [discriminate|]. destruct (map_fds (tab k3) (limit k3) b) as [t'|e|] eqn:M; [|discriminate|discriminate].
  assert (n = a) by congruence. assert (t = exec t') by congruence. subst n t.
  apply map_ok in M. destruct M as (f & c & Tp & _ & Ex). rewrite Ex, (proj2 (Nat.eqb_neq _ _) N). apply exec_some. split; [|reflexivity].
  rewrite F, S, T. rewrite upd_other by lia. apply upd_same.
Qed.
Print Assumptions C101_own_end_refuted.

Lemma start_tab i k k' p : start_priv i k = (k', p) ->
  (tab k' = tab k /\ p = None) \/
  exists a b, a <> b /\ tab k a = None /\ tab k b = None /\
    tab k' = upd (upd (tab k) a (Some (end_b i KPollable, true))) b (Some (end_a (S i) KPollable, true)) /\
    exists t, p = Some t /\ forall n, t n = if Nat.eqb n 1 then Some (end_b (S i) KPollable, false) else if Nat.eqb n 0 then Some (end_a i KPollable, false) else exec (tab k) n.
Proof.
  unfold start_priv. destruct (fault k) as [k0 e] eqn:F. apply fault_tab in F. destruct F as [F FL]. cbv zeta. rewrite F, FL.
  destruct e; [intros H; left; split; congruence|]. destruct (lowest (tab k) 0 (limit k)) as [a|] eqn:La; [|intros H; left; split; congruence].
  destruct (lowest (upd _ _ _) 0 (limit k)) as [b|] eqn:Lb; [|intros H; left; split; congruence]. apply lowest_some in La. apply lowest_some in Lb. destruct La as [_ Ta]. destruct Lb as [_ Tb].
  assert (N : a <> b) by (intros ->; rewrite upd_same in Tb; discriminate). rewrite upd_other in Tb by congruence. intros H. right. exists a, b. split; [exact N|]. split; [exact Ta|]. split; [exact Tb|].
  assert (E : k' = with_tab k0 (upd (upd (tab k) a (Some (end_b i KPollable, true))) b (Some (end_a (S i) KPollable, true)))) by congruence. split; [now subst|].
  eexists. split; [symmetry; apply (f_equal snd H)|]. cbn [snd]. intros n. unfold upd at 1 2. destruct (Nat.eqb n 1); [reflexivity|]. destruct (Nat.eqb n 0); [reflexivity|].
  unfold exec, upd. destruct (Nat.eqb_spec n b) as [->|]; [now rewrite Tb|]. destruct (Nat.eqb_spec n a) as [->|]; [now rewrite Ta|reflexivity].
Qed.
Lemma claim_stream_ok h h' : claim_stream h = Some h' -> exists k n, claim_fd (h_kern h) (Z.of_nat CHILD_FD) = (k, Ok n) /\
  tab (h_kern h') = tab k /\ h_stream h' = Some n /\ h_started h' = h_started h.
Proof.
  unfold claim_stream. destruct (claim_fd _ _) as [k [n|e|]]; [|discriminate|discriminate]. destruct (set_nonblocking k) as [k2 [e|]] eqn:S; [discriminate|].
  apply nonblock_tab in S. intros H. assert (E : h' = {| h_kern := k2; h_stream := Some n; h_started := h_started h |}) by congruence. subst. exists k, n. cbn. intuition.
Qed.

(** The handler has its own end, at number 3 or where it has claimed it *)
Definition own_end (i : nat) (h : handler) : Prop :=
  match h_stream h with
  | None => exists c, tab (h_kern h) CHILD_FD = Some (end_b i KUnixStream, c)
  | Some n => exists c, tab (h_kern h) n = Some (end_b i KUnixStream, c)
  end.
Lemma own_end_step i w o h' : can w o -> w_handler (wstep w o) = Some h' -> (forall h, w_handler w = Some h -> own_end i h) -> own_end i h'.
Proof.
  intros C H O. destruct o; cbn [wstep w_handler] in H; auto; try discriminate.
  - destruct (w_handler w) as [h|] eqn:W; [|discriminate]. cbn [can] in C. destruct C as (h0 & E & St). rewrite W in E. assert (h0 = h) by congruence. subst h0.
    specialize (O _ eq_refl). unfold own_end in O. rewrite St in O. destruct O as [c O].
    apply claim_stream_ok in H. destruct H as (k & n & Cl & T & S & _). apply C81_claim_partial in Cl. destruct Cl as (_ & _ & f & b & [_ R] & Tn & _ & _).
    rewrite Nat2Z.id in R. unfold own_end. rewrite S, T. exists true. assert (f = end_b i KUnixStream) by congruence. now subst f.
  - destruct (w_handler w) as [h|] eqn:W; [|cbn [w_handler] in *; congruence]. destruct (start_priv i0 (h_kern h)) as [k p] eqn:P. cbn [w_handler] in H.
    specialize (O _ eq_refl). assert (E : h' = {| h_kern := k; h_stream := h_stream h; h_started := true |}) by congruence. subst h'. unfold own_end in *. cbn [h_stream h_kern].
    apply start_tab in P. destruct P as [[-> _]|(a & b & N & Ta & Tb & -> & _)]; [exact O|].
    destruct (h_stream h) as [n|]; destruct O as [c O]; exists c; (rewrite !upd_other by congruence); exact O.
Qed.

(** C101 refuted: such a broker never learns that rosenpass is gone.  Whatever happens, it does not meet the end of its connection, whether rosenpass still runs or
    not *)
Theorem C101_end_unseen_refuted : forall conn i k k' t n fl ops w,
  get_broker_socket conn i k IPair = (k', Some t, Ok n) -> (forall m, m <= CHILD_FD -> tab k m <> None) ->
  whist (after_spawn k' t fl) ops w -> ~ can w OEof.
Proof.
  intros conn i k k' t n fl ops w H U Hi. assert (Sp := C101_spawned_partial _ _ _ _ _ _ H). destruct Sp as (_ & T3 & _ & _).
  destruct (C101_own_end_refuted _ _ _ _ _ _ H U) as (N & _ & Tn).
  set (J := fun w => forall h, w_handler w = Some h -> own_end i h /\ exists m c, m <> CHILD_FD /\ tab (h_kern h) m = Some (end_a i KUnixStream, c)).
  assert (J0 : J (after_spawn k' t fl)).
  { intros h E. cbn [after_spawn w_handler] in E. assert (X : h = {| h_kern := {| tab := t; limit := limit k'; faults := fl |}; h_stream := None; h_started := false |}) by congruence. subst h.
    split; [exists false; exact T3|]. exists n, false. split; [exact N|exact Tn]. }
  assert (Js : forall w o, can w o -> J w -> J (wstep w o)).
  { clear -N. intros w o C Jw h' E. split; [apply (own_end_step _ _ _ _ C E); intros h Wh; now apply Jw|].
    destruct o; cbn [wstep w_handler] in E; try discriminate; try (now apply Jw).
    - destruct (w_handler w) as [h|] eqn:W; [|discriminate]. destruct (Jw _ W) as (_ & m & c & M & Tm). apply claim_stream_ok in E. destruct E as (k & n' & Cl & T & _ & _).
      apply C81_claim_partial in Cl. destruct Cl as (_ & Fr & _ & _ & _ & _ & _ & Ot). exists m, c. split; [exact M|]. rewrite T, Ot; [exact Tm|congruence|lia].
    - destruct (w_handler w) as [h|] eqn:W; [|apply Jw; congruence]. destruct (Jw _ W) as (_ & m & c & M & Tm). destruct (start_priv i0 (h_kern h)) as [k p] eqn:P. cbn [w_handler] in E.
      assert (X : h' = {| h_kern := k; h_stream := h_stream h; h_started := true |}) by congruence. subst h'. cbn [h_kern]. exists m, c. split; [exact M|].
      apply start_tab in P. destruct P as [[-> _]|(a & b & Nab & Ta & Tb & -> & _)]; [exact Tm|]. rewrite !upd_other by congruence. exact Tm. }
  assert (Jw : J w) by (clear -Hi J0 Js; revert J0; induction Hi; auto). clear -Jw. intros (h & n & f & c & Wh & St & T & Nh). destruct (Jw _ Wh) as (O & m & c' & _ & Tm).
  unfold own_end in O. rewrite St in O. destruct O as [c0 O]. assert (f = end_b i KUnixStream) by congruence. subst f. apply Nh. rewrite other_b. right. left. exists h. split; [exact Wh|].
  exists m, c'. exact Tm.
Qed.
Print Assumptions C101_end_unseen_refuted.

(** C101: a broker that was started ends soon after rosenpass if it did not get that end.  Partial: this only is so if rosenpass did not use the
    number 3, which the new connection then gets.  When rosenpass is gone the handler meets the end of its connection, and when the handler is gone, too, the privileged
    process meets the end of its standard input *)
Theorem C101_end_seen_partial : forall conn i k k' t n fl ops w,
  get_broker_socket conn i k IPair = (k', Some t, Ok n) -> ~ has k (end_a i KUnixStream) ->
  (forall m, m < CHILD_FD -> tab k m <> None) -> tab k CHILD_FD = None ->
  whist (after_spawn k' t fl) ops w -> w_rosenpass w = None ->
  (forall h, w_handler w = Some h -> h_stream h <> None -> can w OEof) /\
  (w_handler w = None -> w_priv w <> None -> can w OPrivEof).
Proof.
  intros conn i k k' t n fl ops w H Fr U U3 Hi Gone. assert (Sp := C101_spawned_partial _ _ _ _ _ _ H). destruct Sp as (_ & T3 & Ot & _).
  assert (N3 : forall m c, t m <> Some (end_a i KUnixStream, c)).
  { cbn [get_broker_socket] in H. destruct (socketpair i false k) as [k1 r] eqn:P. destruct r as [[a b]|e|]; [|discriminate|discriminate].
    apply pair_ok in P. destruct P as (L & Ta & Tb & Li & B & T). destruct (set_nonblocking k1) as [k2 e] eqn:S. destruct e; [discriminate|].
    apply nonblock_tab in S. destruct S as [S SL]. unfold spawn in H. destruct (fault k2) as [k3 e] eqn:F. apply fault_tab in F. destruct F as [F FL].
    destruct e; [discriminate|]. destruct (map_fds (tab k3) (limit k3) b) as [t'|e|] eqn:M; [|discriminate|discriminate].
    assert (t = exec t') by congruence. subst t. apply map_ok in M. destruct M as (f & c & Tp & _ & Ex). rewrite F, S, T, upd_same in Tp. assert (f = end_b i KUnixStream) by congruence. subst f.
    assert (Ea : a = CHILD_FD). { destruct (lt_eq_lt_dec a CHILD_FD) as [[X|X]|X]; [destruct (U _ X Ta)|exact X|destruct (B _ X U3)]. }
    intros m c' E. rewrite Ex in E. destruct (Nat.eqb_spec m CHILD_FD) as [->|Nm]; [apply (ends_differ i i KUnixStream KUnixStream); congruence|].
    apply exec_some in E. destruct E as [E _]. rewrite F, S, T in E. unfold upd in E. destruct (Nat.eqb m b); [apply (ends_differ i i KUnixStream KUnixStream); congruence|].
    rewrite Ea, (proj2 (Nat.eqb_neq _ _) Nm) in E. apply Fr. exists m, false. exact E. }
  set (J := fun w => (forall h, w_handler w = Some h -> own_end i h /\ ~ has (h_kern h) (end_a i KUnixStream)) /\
    forall kp, w_priv w = Some kp -> ~ has kp (end_a i KUnixStream) /\ exists j, tab kp 0 = Some (end_a j KPollable, false) /\ ~ has kp (end_b j KPollable)).
  assert (J0 : J (after_spawn k' t fl)).
  { split; cbn [after_spawn w_handler w_priv]; [|discriminate]. intros h E.
    assert (X : h = {| h_kern := {| tab := t; limit := limit k'; faults := fl |}; h_stream := None; h_started := false |}) by congruence. subst h.
    split; [exists false; exact T3|]. intros (m & c & E'). exact (N3 _ _ E'). }
  assert (Js : forall w o, can w o -> J w -> J (wstep w o)).
  { clear. intros w o C [Jh Jp]. split.
    - intros h' E. split; [apply (own_end_step _ _ _ _ C E); intros h Wh; now apply Jh|].
      destruct o; cbn [wstep w_handler] in E; try discriminate; try (now apply Jh).
      + destruct (w_handler w) as [h|] eqn:W; [|discriminate]. destruct (Jh _ eq_refl) as (_ & Nh). apply claim_stream_ok in E. destruct E as (k & n' & Cl & T & _ & _).
        apply C81_claim_partial in Cl. destruct Cl as (_ & Fr & f & b & [_ R] & Tn & [_ Rz] & Ot). rewrite Nat2Z.id in *. intros (m & c & Em). rewrite T in Em.
        destruct (Nat.eq_dec m n') as [->|M1]; [apply Nh; exists CHILD_FD, b; congruence|]. destruct (Nat.eq_dec m CHILD_FD) as [->|M2]; [rewrite Em in Rz; discriminate|].
        rewrite Ot in Em; [|exact M1|lia]. apply Nh. exists m, c. exact Em.
      + destruct (w_handler w) as [h|] eqn:W; [|apply Jh; congruence]. destruct (Jh _ eq_refl) as (_ & Nh). destruct (start_priv i0 (h_kern h)) as [k p] eqn:P. cbn [w_handler] in E.
        assert (X : h' = {| h_kern := k; h_stream := h_stream h; h_started := true |}) by congruence. subst h'. cbn [h_kern].
        apply start_tab in P. destruct P as [[Tk _]|(a & b & Nab & Ta & Tb & Tk & _)]; intros (m & c & Em); rewrite Tk in Em; [apply Nh; exists m, c; exact Em|].
        unfold upd in Em. destruct (Nat.eqb m b); [discriminate|]. destruct (Nat.eqb m a); [discriminate|]. apply Nh. exists m, c. exact Em.
    - intros kp E. destruct o; cbn [wstep w_priv] in E; try discriminate; try (now apply Jp).
      destruct (w_handler w) as [h|] eqn:W; [|now apply Jp]. destruct (Jh _ eq_refl) as (_ & Nh). destruct (start_priv i0 (h_kern h)) as [k p] eqn:P. cbn [w_priv] in E.
      apply start_tab in P. destruct P as [[_ ->]|(a & b & Nab & Ta & Tb & Tk & t & -> & Ts)]; [discriminate|].
      assert (X : kp = {| tab := t; limit := limit k; faults := [] |}) by congruence. subst kp. cbn [can] in C. destruct C as [_ Nf]. split.
      + intros (m & c & Em). cbn [tab] in Em. rewrite Ts in Em. destruct (Nat.eqb m 1); [discriminate|]. destruct (Nat.eqb m 0); [discriminate|].
        apply exec_some in Em. destruct Em as [Em _]. apply Nh. exists m, false. exact Em.
      + exists i0. cbn [tab]. split; [rewrite Ts; reflexivity|]. intros (m & c & Em). cbn [tab] in Em. rewrite Ts in Em.
        destruct (Nat.eqb m 1); [unfold end_b in Em; assert (2 * S i0 + 1 = 2 * i0 + 1) by congruence; lia|]. destruct (Nat.eqb m 0); [apply (ends_differ i0 i0 KPollable KPollable); congruence|].
        apply exec_some in Em. destruct Em as [Em _]. apply (Nf (end_b i0 KPollable)); [right; left; reflexivity|]. right. left. exists h. split; [exact W|]. exists m, false. exact Em. }
  assert (Jw : J w) by (clear -Hi J0 Js; revert J0; induction Hi; auto). clear -Jw Gone. destruct Jw as [Jh Jp]. split.
  - intros h Wh St. destruct (h_stream h) as [n|] eqn:Es; [|contradiction]. destruct (Jh _ Wh) as (O & Nh). unfold own_end in O. rewrite Es in O. destruct O as [c O].
    exists h, n, (end_b i KUnixStream), c. repeat split; auto. rewrite other_b. intros [(k & E & _)|[(h' & E & Ha)|(k & E & Ha)]].
    + rewrite Gone in E. discriminate.
    + assert (h' = h) by congruence. subst. contradiction.
    + destruct (Jp _ E). contradiction.
  - intros Wn Wp. destruct (w_priv w) as [kp|] eqn:Ep; [|contradiction]. destruct (Jp _ eq_refl) as (_ & j & T0 & Nh).
    exists kp, (end_a j KPollable), false. repeat split; auto. rewrite other_a. intros [(k & E & _)|[(h' & E & _)|(k & E & Ha)]]; try congruence.
Qed.
Print Assumptions C101_end_seen_partial.

(** * A concrete case *)

(** Standard streams, and the descriptors that rosenpass has open when it starts a broker; [free3]: the same without number 3 *)
Definition demo_kern : kern := {| tab := fun n => if Nat.ltb n 3 then Some (Given (100 + n) KPlain, false) else if Nat.ltb n 6 then Some (Given (100 + n) KPollable, true) else None; limit := 64; faults := [] |}.
Definition free3 : kern := {| tab := fun n => if Nat.eqb n 3 then None else tab demo_kern n; limit := 64; faults := [] |}.
Definition demo_conn (p : bytes) : file := Given 8 KUnixStream.
Definition shown (t : fdtab) : list (option (file * bool)) := map t (seq 0 10).

Example C101_demo :
  (exists k' t, get_broker_socket demo_conn 20 demo_kern IPair = (k', Some t, Ok 6) /\ t 6 = Some (Given 40 KUnixStream, false) /\ t 3 = Some (Given 41 KUnixStream, false) /\ t 4 = None) /\
  (exists k', get_broker_socket demo_conn 20 demo_kern (ISocket []) = (k', None, Ok 6) /\ exec (tab k') 6 = None) /\
  (exists k', get_broker_socket demo_conn 20 demo_kern (IFd 2) = (k', None, Ok 6) /\ exec (tab k') 6 = None /\ tab k' 2 = Some (Null, true)) /\
  (exists k', get_broker_socket demo_conn 20 {| tab := tab demo_kern; limit := 64; faults := [None; None; Some (EOTHER 2)] |} IPair = (k', None, Err (EOTHER 2))) /\
  (exists k' t, get_broker_socket demo_conn 20 free3 IPair = (k', Some t, Ok 3) /\ shown t =
     [Some (Given 100 KPlain, false); Some (Given 101 KPlain, false); Some (Given 102 KPlain, false); Some (Given 41 KUnixStream, false); None; None;
      Some (Given 41 KUnixStream, false); None; None; None]).
Proof. repeat split; repeat (eexists; try reflexivity). Qed.

(** Rosenpass starts the broker, which claims its connection and starts the privileged process; rosenpass ends *)
Definition demo_after (k : kern) : world :=
  match get_broker_socket demo_conn 20 k IPair with (k', Some t, _) => after_spawn k' t [] | _ => {| w_rosenpass := None; w_handler := None; w_priv := None |} end.
Definition demo_ops : list wop := [OClaim; OStart 200; OServe; ORosenpassEnds].
Definition demo_end (k : kern) : world := fold_left wstep demo_ops (demo_after k).
Ltac small m := do 12 (destruct m as [|m]; [vm_compute; intros E; (discriminate E || (inversion E; subst; lia) || (inversion E; exact I))|]); vm_compute; discriminate.
Lemma demo_small_h k : k = demo_kern \/ k = free3 ->
  exists h, w_handler (wstep (demo_after k) OClaim) = Some h /\ h_started h = false /\
  forall m f c, tab (h_kern h) m = Some (f, c) -> match f with Given id _ => id < 400 | Null => True end.
Proof.
  intros [-> | ->]; (eexists; split; [vm_compute; reflexivity|split; [reflexivity|]]; intros m f c; cbn [h_kern tab]; small m).
Qed.
Lemma demo_small_r k : k = demo_kern \/ k = free3 ->
  exists r, w_rosenpass (wstep (demo_after k) OClaim) = Some r /\
  forall m f c, tab r m = Some (f, c) -> match f with Given id _ => id < 400 | Null => True end.
Proof.
  intros [-> | ->]; (eexists; split; [vm_compute; reflexivity|]; intros m f c; cbn [tab]; small m).
Qed.
Lemma demo_whist k : k = demo_kern \/ k = free3 -> whist (demo_after k) demo_ops (demo_end k).
Proof.
  intros K. destruct (demo_small_h k K) as (h & Wh & Hs & Sh). destruct (demo_small_r k K) as (r & Wr & Sr).
  assert (Wp : w_priv (wstep (demo_after k) OClaim) = None) by (destruct K as [-> | ->]; reflexivity).
  unfold demo_ops, demo_end. cbn [fold_left demo_ops]. apply whist_cons; [destruct K as [-> | ->]; eexists; split; reflexivity|]. apply whist_cons.
  - split; [exists h; auto|]. intros f F. assert (Hf : match f with Given id _ => 400 <= id | Null => False end) by (repeat destruct F as [<-|F]; [vm_compute; lia..|destruct F]).
    intros [(k0 & E & m & c & T)|[(h0 & E & m & c & T)|(k0 & E & _)]].
    + rewrite Wr in E. assert (k0 = r) by congruence. subst k0. apply Sr in T. destruct f; [exact Hf|lia].
    + rewrite Wh in E. assert (h0 = h) by congruence. subst h0. apply Sh in T. destruct f; [exact Hf|lia].
    + rewrite Wp in E. discriminate.
  - apply whist_cons; [destruct K as [-> | ->]; do 2 eexists; split; reflexivity|]. apply whist_cons; [destruct K as [-> | ->]; discriminate|]. constructor.
Qed.
Example C101_demo_history :
  (forall k, k = demo_kern \/ k = free3 -> w_rosenpass (demo_end k) = None /\ w_priv (demo_end k) <> None /\
     exists h n, w_handler (demo_end k) = Some h /\ h_stream h = Some n) /\
  ~ can (demo_end demo_kern) OEof /\ can (demo_end free3) OEof.
Proof.
  split; [intros k [-> | ->]; (split; [reflexivity|]; split; [discriminate|]; do 2 eexists; split; reflexivity)|]. split.
  - eapply (C101_end_unseen_refuted demo_conn 20 demo_kern); [reflexivity| |apply (demo_whist demo_kern); auto].
    intros m M. unfold CHILD_FD in M. do 4 (destruct m as [|m]; [discriminate|]). lia.
  - eapply (C101_end_seen_partial demo_conn 20 free3); [reflexivity| | |reflexivity|apply (demo_whist free3); auto|reflexivity|reflexivity|discriminate].
    + intros (m & c & T). revert T. do 12 (destruct m as [|m]; [vm_compute; discriminate|]); vm_compute; discriminate.
    + intros m M. unfold CHILD_FD in M. do 3 (destruct m as [|m]; [discriminate|]). lia.
Qed.
