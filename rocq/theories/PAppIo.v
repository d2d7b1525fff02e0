(** C29, C30, C36: I/O tokens, PSK brokers, API connections. *)
From Verif Require Import Base AppIo.

(** * Maps *)

Lemma mget_mdel {A} k j (m : map_t A) : mget k (mdel j m) = if Nat.eqb k j then None else mget k m.
Proof.
  unfold mdel in *. induction m as [|[i v] m IH]; cbn; [now destruct (Nat.eqb k j)|].
  destruct (Nat.eqb_spec j i) as [->|N]; cbn [negb].
  - rewrite IH. now destruct (Nat.eqb k i).
  - cbn [mget]. rewrite IH. destruct (Nat.eqb_spec k i) as [->|N2]; [|reflexivity].
    destruct (Nat.eqb_spec i j); [congruence|reflexivity].
Qed.
Lemma mget_mset {A} k j v (m : map_t A) : mget k (mset j v m) = if Nat.eqb k j then Some v else mget k m.
Proof.
  unfold mset. cbn [mget]. rewrite mget_mdel. now destruct (Nat.eqb k j).
Qed.
Definition keys {A} (m : map_t A) : list nat := map fst m.
Lemma mget_keys {A} k (m : map_t A) : mget k m <> None <-> In k (keys m).
Proof.
  induction m as [|[i v] m IH]; cbn; [tauto|].
  destruct (Nat.eqb_spec k i) as [->|N]; [split; [now left|discriminate]|].
  rewrite IH. split; [now right|]. intros [E|H]; [congruence|exact H].
Qed.
Lemma keys_mdel {A} k j (m : map_t A) : In k (keys (mdel j m)) <-> In k (keys m) /\ k <> j.
Proof.
  rewrite <- !mget_keys, mget_mdel. destruct (Nat.eqb_spec k j); split; try tauto; congruence.
Qed.
Lemma nodup_mdel {A} j (m : map_t A) : NoDup (keys m) -> NoDup (keys (mdel j m)).
Proof.
  unfold keys, mdel. induction m as [|[i v] m IH]; cbn; [auto|].
  intros N. inversion N as [|? ? N1 N2]; subst. destruct (Nat.eqb j i); cbn; [auto|].
  constructor; [|auto]. intros H. apply N1. apply in_map_iff in H. destruct H as (e & <- & He).
  apply filter_In in He. now apply in_map.
Qed.
Lemma nodup_mset {A} j v (m : map_t A) : NoDup (keys m) -> NoDup (keys (mset j v m)).
Proof.
  intros N. unfold mset. cbn. constructor; [|now apply nodup_mdel].
  intros H. apply keys_mdel in H. tauto.
Qed.

(** * The invariant *)

Fixpoint tokens (l : list (option conn)) : list nat :=
  match l with
  | [] => []
  | Some c :: l' => cn_token c :: tokens l'
  | None :: l' => tokens l'
  end.

Record ioinv (x : io) : Prop := {
  n_keys : forall t s, mget t (io_index x) = Some s -> t < io_counter x;
  n_sock : forall t i, mget t (io_index x) = Some (SrcSocket i) -> i < io_sockets x;
  n_noconn : forall t i, mget t (io_index x) <> Some (SrcConnection i);
  n_bnodup : NoDup (keys (io_brokers x));
  n_btok : forall p b t, mget p (io_brokers x) = Some b -> br_token b = Some t -> t < io_counter x;
  n_conn : forall t, In t (tokens (io_conns x)) ->
    t < io_counter x /\ exists i, mget t (io_index x) = Some (SrcListener i);
  n_cnodup : NoDup (tokens (io_conns x));
  n_brk : forall p b t, mget p (io_brokers x) = Some b -> br_token b = Some t ->
    forall s, mget t (io_index x) = Some s -> s = SrcBroker p
}.

Lemma index_sockets_keys n t s : mget t (index_sockets n) = Some s ->
  t < S n /\ match s with SrcSocket i => i < n | SrcSignal => True | _ => False end.
Proof.
  induction n as [|n IH]; cbn [index_sockets].
  - cbn. destruct (Nat.eqb_spec t 0); [|discriminate]. intros [= <-]. split; [lia|exact Logic.I].
  - rewrite mget_mset. destruct (Nat.eqb_spec t (S n)).
    + intros [= <-]. lia.
    + intros H. destruct (IH H) as [A B]. split; [lia|]. destruct s; auto; lia.
Qed.

Lemma new_inv n : ioinv (io_new n).
Proof.
  split; cbn [io_new io_index io_counter io_sockets io_brokers io_conns tokens].
  - intros t s H. apply index_sockets_keys in H. tauto.
  - intros t i H. now apply index_sockets_keys in H.
  - intros t i H. now apply index_sockets_keys in H.
  - constructor.
  - discriminate.
  - intros t [].
  - constructor.
  - discriminate.
Qed.

Lemma dispense_fresh x : ioinv x -> mget (io_counter x) (io_index x) = None.
Proof.
  intros I. destruct (mget _ _) eqn:E; [|reflexivity]. apply (n_keys x I) in E. lia.
Qed.

Lemma tokens_app a b : tokens (a ++ b) = tokens a ++ tokens b.
Proof. induction a as [|[c|] a IH]; cbn; [reflexivity|now rewrite IH|exact IH]. Qed.

Lemma tokens_insert i c l t : In t (tokens (vec_insert i (Some c) l)) <-> t = cn_token c \/ In t (tokens l).
Proof.
  unfold vec_insert. rewrite tokens_app. cbn [tokens]. rewrite in_app_iff. cbn [In].
  rewrite <- (firstn_skipn i l) at 3. rewrite tokens_app, in_app_iff. intuition.
Qed.

Lemma nodup_insert i c l : NoDup (tokens l) -> ~ In (cn_token c) (tokens l) ->
  NoDup (tokens (vec_insert i (Some c) l)).
Proof.
  intros N H. unfold vec_insert. rewrite tokens_app. cbn [tokens].
  rewrite <- (firstn_skipn i l), tokens_app in N, H. revert N H.
  generalize (tokens (firstn i l)) (tokens (skipn i l)). intros a b N H.
  apply NoDup_Add with (a := cn_token c) (l := a ++ b); [apply Add_app|]. auto.
Qed.

Ltac sub := cbn [fst snd set_io_sockets set_io_counter set_io_index set_io_brokers set_io_listeners set_io_conns
  io_sockets io_counter io_index io_brokers io_listeners io_conns] in *.

(** Counter only. *)
Lemma inv_count x n : ioinv x -> io_counter x <= n -> ioinv (set_io_counter n x).
Proof.
  intros [A B C D E F G H] L. split; sub; auto.
  - intros t s Q. apply A in Q. lia.
  - intros p b t Q1 Q2. specialize (E p b t Q1 Q2). lia.
  - intros t Q. destruct (F t Q) as [F1 F2]. split; [lia|exact F2].
Qed.

(** Each operation keeps the invariant; registrations do not panic; the counter never falls. *)
Definition kept {A} (x : io) (r : io * res io_err A) : Prop :=
  ioinv (fst r) /\ io_counter x <= io_counter (fst r).
Definition progress {A} (x : io) (r : io * res io_err A) : Prop := kept x r /\ snd r <> Panic.

Lemma listen_kept ok x : ioinv x ->
  progress x (register_listen_socket ok x) /\
  forall t, snd (register_listen_socket ok x) = Ok t -> t = io_counter x /\ t < io_counter (fst (register_listen_socket ok x)).
Proof.
  intros I. pose proof (dispense_fresh x I) as Fr.
  unfold register_listen_socket, dispense. destruct ok; cbn [negb].
  - unfold register_io_source. sub. rewrite Fr. cbn [fst snd]. split; [split; [split|]|].
    + destruct I as [A B C D E F G H]. split; sub.
      * intros t s. rewrite mget_mset. destruct (Nat.eqb_spec t (io_counter x)); [lia|].
        intros Q. apply A in Q. lia.
      * intros t i. rewrite mget_mset. destruct (Nat.eqb_spec t (io_counter x)).
        -- intros [= <-]. lia.
        -- intros Q. apply B in Q. lia.
      * intros t i. rewrite mget_mset. destruct (Nat.eqb_spec t (io_counter x)); [discriminate|apply C].
      * exact D.
      * intros p b t Q1 Q2. specialize (E p b t Q1 Q2). lia.
      * intros t Q. destruct (F t Q) as [F1 (i & F2)]. split; [lia|]. exists i. rewrite mget_mset.
        destruct (Nat.eqb_spec t (io_counter x)); [lia|exact F2].
      * exact G.
      * intros p b t Q1 Q2 s. rewrite mget_mset. destruct (Nat.eqb_spec t (io_counter x)).
        -- specialize (E p b t Q1 Q2). lia.
        -- now apply (H p b t).
    + sub. lia.
    + discriminate.
    + intros t [= <-]. sub. lia.
  - cbn [fst snd]. split; [split; [split|]|]; try discriminate; sub; [|lia].
    apply inv_count; [exact I|lia].
Qed.

Lemma listener_kept ok x : ioinv x ->
  progress x (add_listener ok x) /\
  forall t, snd (add_listener ok x) = Ok t -> t = io_counter x /\ t < io_counter (fst (add_listener ok x)).
Proof.
  intros I. pose proof (dispense_fresh x I) as Fr.
  unfold add_listener, dispense. destruct ok; cbn [negb].
  - unfold register_io_source. sub. rewrite Fr. cbn [fst snd]. split; [split; [split|]|].
    + destruct I as [A B C D E F G H]. split; sub.
      * intros t s. rewrite mget_mset. destruct (Nat.eqb_spec t (io_counter x)); [lia|].
        intros Q. apply A in Q. lia.
      * intros t i. rewrite mget_mset. destruct (Nat.eqb_spec t (io_counter x)); [discriminate|apply B].
      * intros t i. rewrite mget_mset. destruct (Nat.eqb_spec t (io_counter x)); [discriminate|apply C].
      * exact D.
      * intros p b t Q1 Q2. specialize (E p b t Q1 Q2). lia.
      * intros t Q. destruct (F t Q) as [F1 (i & F2)]. split; [lia|]. exists i. rewrite mget_mset.
        destruct (Nat.eqb_spec t (io_counter x)); [lia|exact F2].
      * exact G.
      * intros p b t Q1 Q2 s. rewrite mget_mset. destruct (Nat.eqb_spec t (io_counter x)).
        -- specialize (E p b t Q1 Q2). lia.
        -- now apply (H p b t).
    + sub. lia.
    + discriminate.
    + intros t [= <-]. sub. lia.
  - cbn [fst snd]. split; [split; [split|]|]; try discriminate; sub; [|lia].
    apply inv_count; [exact I|lia].
Qed.

Lemma connection_kept ok x : ioinv x ->
  progress x (add_connection ok x) /\
  (forall t, snd (add_connection ok x) = Ok t -> t = io_counter x /\ t < io_counter (fst (add_connection ok x))) /\
  (forall t, In t (tokens (io_conns x)) -> In t (tokens (io_conns (fst (add_connection ok x))))).
Proof.
  intros I. pose proof (dispense_fresh x I) as Fr.
  unfold add_connection, dispense. destruct ok; cbn [negb].
  - unfold register_io_source. sub. rewrite Fr. cbn [fst snd]. split; [split; [split|]|split].
    + destruct I as [A B C D E F G H]. split; sub.
      * intros t s. rewrite mget_mset. destruct (Nat.eqb_spec t (io_counter x)); [lia|].
        intros Q. apply A in Q. lia.
      * intros t i. rewrite mget_mset. destruct (Nat.eqb_spec t (io_counter x)); [discriminate|apply B].
      * intros t i. rewrite mget_mset. destruct (Nat.eqb_spec t (io_counter x)); [discriminate|apply C].
      * exact D.
      * intros p b t Q1 Q2. specialize (E p b t Q1 Q2). lia.
      * intros t Q. apply tokens_insert in Q. cbn [cn_token] in Q. rewrite mget_mset.
        destruct (Nat.eqb_spec t (io_counter x)) as [->|N].
        -- split; [lia|]. eexists. reflexivity.
        -- destruct Q as [Q|Q]; [lia|]. destruct (F t Q) as [F1 (i & F2)]. split; [lia|]. now exists i.
      * apply nodup_insert; [exact G|]. cbn [cn_token]. intros Q. apply F in Q. lia.
      * intros p b t Q1 Q2 s. rewrite mget_mset. destruct (Nat.eqb_spec t (io_counter x)).
        -- specialize (E p b t Q1 Q2). lia.
        -- now apply (H p b t).
    + sub. lia.
    + discriminate.
    + intros t [= <-]. sub. lia.
    + intros t Q. sub. apply tokens_insert. now right.
  - cbn [fst snd]. split; [split; [split|]|split]; try discriminate; sub; [|lia|auto].
    apply inv_count; [exact I|lia].
Qed.

Lemma mget_length_fresh {A} (m : map_t A) : (forall k, In k (keys m) -> k < length m) -> mget (length m) m = None.
Proof.
  intros H. destruct (mget (length m) m) eqn:E; [|reflexivity].
  assert (In (length m) (keys m)) as K by (apply mget_keys; congruence). apply H in K. lia.
Qed.

Lemma broker_kept obj ok x : ioinv x -> progress x (register_broker obj ok x).
Proof.
  intros I. pose proof (dispense_fresh x I) as Fr.
  unfold register_broker. sub. set (p := length (io_brokers x)).
  destruct (mget p (io_brokers x)) as [b0|] eqn:E0.
  - cbn [fst snd]. split; [split|discriminate]; sub; [|lia].
    destruct I as [A B C D E F G H]. split; sub; auto.
    + now apply nodup_mset.
    + intros q b t. rewrite mget_mset. destruct (Nat.eqb q p); [now intros [= <-]|apply E].
    + intros q b t. rewrite mget_mset. destruct (Nat.eqb q p); [now intros [= <-]|apply H].
  - unfold dispense. sub. rewrite mget_mset, Nat.eqb_refl. cbn [br_obj].
    assert (ioinv (set_io_brokers (mset p {| br_obj := obj; br_token := Some (io_counter x) |}
              (mset p {| br_obj := obj; br_token := None |} (io_brokers x)))
              (set_io_counter (io_counter x + 1) (set_io_brokers (mset p {| br_obj := obj; br_token := None |} (io_brokers x)) x)))) as I1.
    { destruct I as [A B C D E F G H]. split; sub; auto.
      - intros t s Q. apply A in Q. lia.
      - now apply nodup_mset, nodup_mset.
      - intros q b t. rewrite !mget_mset. destruct (Nat.eqb q p).
        + intros [= <-]. cbn. intros [= <-]. lia.
        + intros Q1 Q2. specialize (E q b t Q1 Q2). lia.
      - intros t Q. destruct (F t Q) as [F1 F2]. split; [lia|exact F2].
      - intros q b t. rewrite !mget_mset. destruct (Nat.eqb q p).
        + intros [= <-]. cbn. intros [= <-] s Q. congruence.
        + intros Q1 Q2. exact (H q b t Q1 Q2). }
    destruct ok; cbn [negb].
    2:{ cbn [fst snd]. split; [split; [exact I1|]|discriminate]. sub. lia. }
    unfold register_io_source. sub. rewrite Fr. cbn [fst snd]. split; [split|discriminate]; sub; [|lia].
    destruct I1 as [A B C D E F G H]. split; sub; auto.
    + intros t s. rewrite mget_mset. destruct (Nat.eqb_spec t (io_counter x)); [lia|apply A].
    + intros t i. rewrite mget_mset. destruct (Nat.eqb_spec t (io_counter x)); [discriminate|apply B].
    + intros t i. rewrite mget_mset. destruct (Nat.eqb_spec t (io_counter x)); [discriminate|apply C].
    + intros t Q. destruct (F t Q) as [F1 (i & F2)]. split; [exact F1|]. exists i. rewrite mget_mset.
      destruct (Nat.eqb_spec t (io_counter x)); [congruence|exact F2].
    + intros q b t Q1 Q2 s. rewrite mget_mset. destruct (Nat.eqb_spec t (io_counter x)) as [->|N].
      * intros [= <-]. f_equal. rewrite !mget_mset in Q1. destruct (Nat.eqb_spec q p) as [->|Nq]; [reflexivity|].
        exfalso. pose proof (n_btok x I q b _ Q1 Q2). lia.
      * now apply (H q b t).
Qed.

Lemma unbroker_kept p ok x : ioinv x -> kept x (unregister_broker p ok x).
Proof.
  intros I. unfold unregister_broker. destruct (mget p (io_brokers x)) as [b|] eqn:E; [|split; cbn; auto].
  assert (ioinv (set_io_brokers (mdel p (io_brokers x)) x)) as I1.
  { destruct I as [A B C D E0 F G H]. split; sub; auto.
    - now apply nodup_mdel.
    - intros q c t. rewrite mget_mdel. destruct (Nat.eqb q p); [discriminate|apply E0].
    - intros q c t. rewrite mget_mdel. destruct (Nat.eqb q p); [discriminate|apply H]. }
  destruct (br_token b) as [t|] eqn:Et; [|split; cbn; auto].
  assert (forall y, ioinv y -> (forall s, mget t (io_index y) = Some s -> s = SrcBroker p) ->
            ioinv (set_io_index (mdel t (io_index y)) y)) as Del.
  { intros y [A B C D E0 F G H] Ht. split; sub; auto.
    - intros u s. rewrite mget_mdel. destruct (Nat.eqb u t); [discriminate|apply A].
    - intros u s. rewrite mget_mdel. destruct (Nat.eqb u t); [discriminate|apply B].
    - intros u s. rewrite mget_mdel. destruct (Nat.eqb u t); [discriminate|apply C].
    - intros u Q. destruct (F u Q) as [F1 (i & F2)]. split; [exact F1|]. exists i. rewrite mget_mdel.
      destruct (Nat.eqb_spec u t) as [->|]; [|exact F2]. apply Ht in F2. discriminate.
    - intros q c u Q1 Q2 s. rewrite mget_mdel. destruct (Nat.eqb u t); [discriminate|now apply (H q c u)]. }
  specialize (Del _ I1). sub. specialize (Del (n_brk x I p b t E Et)).
  unfold unregister_io_source. sub.
  destruct (mget t (io_index x)); [destruct ok|]; split; cbn [fst snd]; try exact Del; sub; lia.
Qed.

Lemma psk_kept s a b x : ioinv x -> kept x (add_psk_broker s a b x).
Proof.
  intros I. unfold add_psk_broker. destruct s as [obj|]; [|split; cbn; auto].
  destruct (length (io_brokers x)) as [|n]; [split; cbn; auto|].
  pose proof (unbroker_kept n a x I) as (I1 & L1).
  destruct (unregister_broker n a x) as [x1 [u|e|]]; cbn [fst] in *; try (split; cbn; auto; fail).
  pose proof (broker_kept obj b x1 I1) as ((I2 & L2) & _).
  destruct (register_broker obj b x1) as [x2 [q|e|]]; cbn [fst] in *; split; cbn; auto; lia.
Qed.

Lemma tokens_upd i c l : nth_error l i = Some (Some c) ->
  exists a b, tokens l = a ++ cn_token c :: b /\ tokens (upd i None l) = a ++ b.
Proof.
  revert i. induction l as [|o l IH]; intros [|i] E; cbn in E; try discriminate.
  - injection E as ->. exists [], (tokens l). auto.
  - destruct (IH i E) as (a & b & E1 & E2). destruct o as [d|]; cbn [tokens upd].
    + exists (cn_token d :: a), b. rewrite E1, E2. auto.
    + exists a, b. auto.
Qed.

Lemma poll_kept i c x : ioinv x ->
  kept x (poll_particular_connection i c x) /\
  (i < length (io_conns x) -> snd (poll_particular_connection i c x) <> Panic) /\
  (forall t, In t (tokens (io_conns x)) ->
     In t (tokens (io_conns (fst (poll_particular_connection i c x)))) \/
     c = PolledClose /\ snd (poll_particular_connection i c x) = Ok (Some {| cn_token := t |})).
Proof.
  intros I. unfold poll_particular_connection.
  destruct (nth_error (io_conns x) i) as [[d|]|] eqn:E.
  - destruct c.
    1,3: cbn [fst snd]; split; [split; auto|]; split; [discriminate|auto].
    destruct (tokens_upd i d _ E) as (a & b & E1 & E2).
    assert (In (cn_token d) (tokens (io_conns x))) as Hd by (rewrite E1; apply in_app_iff; right; now left).
    destruct (n_conn x I _ Hd) as (Ld & k & Hk).
    unfold unregister_io_source. sub. rewrite Hk. cbn [fst snd].
    pose proof (n_cnodup x I) as ND. rewrite E1 in ND.
    split; [|split; [discriminate|]].
    + split; sub; [|lia].
      destruct I as [A B C D E0 F G H]. split; sub; auto.
      * intros u s. rewrite mget_mdel. destruct (Nat.eqb u _); [discriminate|apply A].
      * intros u s. rewrite mget_mdel. destruct (Nat.eqb u _); [discriminate|apply B].
      * intros u s. rewrite mget_mdel. destruct (Nat.eqb u _); [discriminate|apply C].
      * intros u Q. rewrite E2 in Q. destruct (F u) as [F1 (j & F2)].
        { rewrite E1. apply in_app_iff. apply in_app_iff in Q. destruct Q; [now left|right; now right]. }
        split; [exact F1|]. exists j. rewrite mget_mdel.
        destruct (Nat.eqb_spec u (cn_token d)) as [->|]; [|exact F2].
        now apply NoDup_remove_2 in ND.
      * rewrite E2. now apply NoDup_remove_1 in ND.
      * intros q w u Q1 Q2 s. rewrite mget_mdel. destruct (Nat.eqb u _); [discriminate|now apply (H q w u)].
    + intros t Ht. sub. rewrite E2. rewrite E1 in Ht. apply in_app_iff in Ht. cbn [In] in Ht.
      destruct Ht as [Ht|[Ht|Ht]]; [left; apply in_app_iff; now left| |left; apply in_app_iff; now right].
      right. split; [reflexivity|]. destruct d. cbn in Ht. now subst.
  - cbn [fst snd]. split; [split; auto|]. split; [discriminate|auto].
  - cbn [fst snd]. split; [split; auto|]. split; [|auto].
    intros L. apply nth_error_None in E. lia.
Qed.

Lemma upd_length {A} i (v : A) l : length (upd i v l) = length l.
Proof. revert i. induction l as [|a l IH]; intros [|i]; cbn; auto. Qed.
Lemma poll_length i c x : length (io_conns (fst (poll_particular_connection i c x))) = length (io_conns x).
Proof.
  unfold poll_particular_connection, unregister_io_source. destruct (nth_error _ i) as [[d|]|]; auto.
  destruct c; auto. sub. destruct (mget _ _); sub; apply upd_length.
Qed.
Lemma accept_listeners w x : io_listeners (fst (accept_all w x)) = io_listeners x.
Proof.
  revert x. induction w as [|ok w IH]; intros x; cbn [accept_all]; [reflexivity|].
  assert (io_listeners (fst (add_connection ok x)) = io_listeners x) as H.
  { unfold add_connection, dispense, register_io_source. destruct ok; cbn [negb]; sub; [|reflexivity].
    destruct (mget _ _); reflexivity. }
  destruct (add_connection ok x) as [x1 [u|e|]]; cbn [fst] in *; [rewrite IH|..]; exact H.
Qed.

Lemma accept_all_kept w x : ioinv x ->
  progress x (accept_all w x) /\ (forall t, In t (tokens (io_conns x)) -> In t (tokens (io_conns (fst (accept_all w x))))).
Proof.
  revert x. induction w as [|ok w IH]; intros x I; cbn [accept_all].
  { split; [split; [split; cbn; auto|discriminate]|auto]. }
  destruct (connection_kept ok x I) as (((I1 & L1) & NP) & _ & K).
  destruct (add_connection ok x) as [x1 [t|e|]]; cbn [fst snd] in *.
  - destruct (IH x1 I1) as (((I2 & L2) & NP2) & K2). split; [split; [split; [exact I2|lia]|exact NP2]|auto].
  - split; [split; [split; auto|discriminate]|auto].
  - now elim NP.
Qed.

Lemma polls_kept n i f x : ioinv x -> i + n <= length (io_conns x) ->
  match poll_connections n i f x with (y, l, r) => kept x (y, r) /\ r <> Panic end.
Proof.
  revert i x. induction n as [|n IH]; intros i x I L; cbn [poll_connections].
  { split; [split; cbn; auto|discriminate]. }
  destruct (poll_kept i (f i) x I) as ((I1 & L1) & NP & _). specialize (NP ltac:(lia)).
  pose proof (poll_length i (f i) x) as Len.
  destruct (poll_particular_connection i (f i) x) as [x1 [c|e|]]; cbn [fst snd] in *; [|split; [split; auto|discriminate]|now elim NP].
  specialize (IH (S i) x1 I1 ltac:(lia)). destruct (poll_connections n (S i) f x1) as [[y l] r].
  destruct IH as ((I2 & L2) & NP2). cbn [fst] in *. split; [split; cbn [fst]; [exact I2|lia]|exact NP2].
Qed.

Lemma accepts_kept n i w x : ioinv x -> i + n <= io_listeners x -> progress x (accept_connections n i w x).
Proof.
  revert i x. induction n as [|n IH]; intros i x I L; cbn [accept_connections].
  { split; [split; cbn; auto|discriminate]. }
  unfold accept_from. assert (Nat.ltb i (io_listeners x) = true) as -> by (apply Nat.ltb_lt; lia).
  destruct (accept_all_kept (w i) x I) as (((I1 & L1) & NP) & _). pose proof (accept_listeners (w i) x) as Len.
  destruct (accept_all (w i) x) as [x1 [u|e|]]; cbn [fst snd] in *; [|split; [split; auto|discriminate]|now elim NP].
  destruct (IH (S i) x1 I1 ltac:(lia)) as ((I2 & L2) & NP2). split; [split; [exact I2|lia]|exact NP2].
Qed.

Lemma manager_kept w f x : ioinv x ->
  match poll_manager w f x with (y, l, r) => kept x (y, r) /\ r <> Panic end.
Proof.
  intros I. unfold poll_manager.
  destruct (accepts_kept (io_listeners x) 0 w x I ltac:(lia)) as ((I1 & L1) & NP).
  destruct (accept_connections (io_listeners x) 0 w x) as [x1 [u|e|]]; cbn [fst snd] in *;
    [|split; [split; auto|discriminate]|now elim NP].
  pose proof (polls_kept (length (io_conns x1)) 0 f x1 I1 ltac:(lia)) as P.
  destruct (poll_connections (length (io_conns x1)) 0 f x1) as [[y l] r].
  destruct P as ((I2 & L2) & NP2). cbn [fst] in *. split; [split; cbn [fst]; [exact I2|lia]|exact NP2].
Qed.

(** What accepting and polling connections keep, polling all of them keeps. *)
Lemma accept_all_keeps (Q : io -> Prop) w x : (forall ok y, Q y -> Q (fst (add_connection ok y))) ->
  Q x -> Q (fst (accept_all w x)).
Proof.
  intros A. revert x. induction w as [|ok w IH]; intros x H; cbn [accept_all]; [exact H|].
  specialize (A ok x H). destruct (add_connection ok x) as [y [v|e|]]; cbn [fst] in *; auto.
Qed.
Lemma manager_keeps (Q : io -> Prop) w f x :
  (forall ok y, Q y -> Q (fst (add_connection ok y))) ->
  (forall i c y, Q y -> Q (fst (poll_particular_connection i c y))) ->
  Q x -> Q (fst (fst (poll_manager w f x))).
Proof.
  intros A B H. unfold poll_manager.
  assert (forall n i x, Q x -> Q (fst (accept_connections n i w x))) as HA.
  { clear x H. induction n as [|n IH]; intros i x H; cbn [accept_connections]; [exact H|].
    unfold accept_from. destruct (Nat.ltb i (io_listeners x)); [|exact H].
    pose proof (accept_all_keeps Q (w i) x A H) as H1.
    destruct (accept_all (w i) x) as [y [v|e|]]; cbn [fst] in *; auto. }
  assert (forall n i x, Q x -> Q (fst (fst (poll_connections n i f x)))) as HB.
  { clear x H. induction n as [|n IH]; intros i x H; cbn [poll_connections]; [exact H|].
    specialize (B i (f i) x H). destruct (poll_particular_connection i (f i) x) as [y [v|e|]]; cbn [fst] in *; auto.
    specialize (IH (S i) y B). destruct (poll_connections n (S i) f y) as [[z l] r]. exact IH. }
  specialize (HA (io_listeners x) 0 x H).
  destruct (accept_connections (io_listeners x) 0 w x) as [y [v|e|]]; cbn [fst] in *; auto.
Qed.

Lemma dispatch_kept t w c x : ioinv x ->
  kept x (dispatch t w c x) /\
  (forall u, In u (tokens (io_conns x)) -> In u (tokens (io_conns (fst (dispatch t w c x))))).
Proof.
  intros I. unfold dispatch. destruct (mget t (io_index x)) as [[|i|p|i|i]|] eqn:E; try (split; [split; cbn; auto|auto]; fail).
  - destruct (Nat.ltb i (io_sockets x)); split; [split| |split|]; cbn; auto.
  - destruct (mget p (io_brokers x)); split; [split| |split|]; cbn; auto.
  - unfold accept_from. destruct (Nat.ltb i (io_listeners x)); [|split; [split; cbn; auto|auto]].
    destruct (accept_all_kept w x I) as (((I1 & L1) & _) & K1).
    destruct (accept_all w x) as [x1 [u|e|]]; cbn [fst] in *; split; [split| |split| |split|]; auto.
  - now elim (n_noconn x I t i).
Qed.

Lemma exec_kept o x : ioinv x -> kept x (io_exec o x).
Proof.
  intros I. unfold io_exec. destruct o as [ok|obj ok|p ok|s a b|ok|ok|wf fo|t w c].
  - destruct (listen_kept ok x I) as ((K & _) & _). destruct (register_listen_socket ok x); exact K.
  - destruct (broker_kept obj ok x I) as (K & _). destruct (register_broker obj ok x); exact K.
  - pose proof (unbroker_kept p ok x I) as K. destruct (unregister_broker p ok x); exact K.
  - pose proof (psk_kept s a b x I) as K. destruct (add_psk_broker s a b x); exact K.
  - destruct (listener_kept ok x I) as ((K & _) & _). destruct (add_listener ok x); exact K.
  - destruct (connection_kept ok x I) as ((K & _) & _). destruct (add_connection ok x); exact K.
  - pose proof (manager_kept wf fo x I) as K. destruct (poll_manager wf fo x) as [[y l] r]. exact (proj1 K).
  - destruct (dispatch_kept t w c x I) as (K & _). destruct (dispatch t w c x); exact K.
Qed.

Lemma run_kept x h x' : io_run x h x' -> ioinv x -> ioinv x' /\ io_counter x <= io_counter x'.
Proof.
  induction 1 as [x|x o x1 r h x2 E NP R IH]; intros I; [auto|].
  destruct (exec_kept o x I) as (I1 & L1). rewrite E in I1, L1. cbn [fst] in *.
  destruct (IH I1). split; [auto|lia].
Qed.

Lemma reachable_ioinv x : io_reachable x -> ioinv x.
Proof. intros (n & h & R). apply (run_kept _ _ _ R), new_inv. Qed.

(** * C29 *)

(** The next token is not used by anything: no I/O source, broker or connection has it. *)
Theorem C29_next_is_fresh : forall x, io_reachable x ->
  let t := snd (dispense x) in
  mget t (io_index x) = None /\
  (forall p b, mget p (io_brokers x) = Some b -> br_token b <> Some t) /\
  (forall i c, nth_error (io_conns x) i = Some (Some c) -> cn_token c <> t).
Proof.
  intros x R. apply reachable_ioinv in R. cbv zeta. cbn [dispense snd].
  split; [now apply dispense_fresh|]. split.
  - intros p b E T. apply (n_btok x R p b) in T; [lia|exact E].
  - intros i c E T. destruct (tokens_upd i c _ E) as (a & b & E1 & _).
    destruct (n_conn x R (cn_token c)) as (L & _); [rewrite E1; apply in_app_iff; right; now left|]. lia.
Qed.
Print Assumptions C29_next_is_fresh.

(** Over any history, with closed connections and unregistered brokers in between, the tokens
    handed out are all different, in fact increasing. *)
Theorem C29_never_twice : forall x h x' i j o1 t1 o2 t2,
  io_reachable x -> io_run x h x' -> i < j ->
  nth_error h i = Some (o1, Ok (OToken t1)) -> nth_error h j = Some (o2, Ok (OToken t2)) -> t1 < t2.
Proof.
  intros x h x' i j o1 t1 o2 t2 Rx R. apply reachable_ioinv in Rx. revert i j.
  assert (forall o x x1 t, ioinv x -> io_exec o x = (x1, Ok (OToken t)) -> io_counter x <= t < io_counter x1) as G.
  { clear. intros o x x1 t I E. unfold io_exec in E. destruct o as [ok|obj ok|p ok|s a b|ok|ok|wf fo|u w c].
    - destruct (listen_kept ok x I) as (_ & K). destruct (register_listen_socket ok x) as [y [v|e|]]; try discriminate.
      injection E as <- <-. cbn [fst snd] in K. destruct (K v eq_refl). lia.
    - destruct (register_broker obj ok x) as [y [v|e|]]; discriminate.
    - destruct (unregister_broker p ok x) as [y [v|e|]]; discriminate.
    - destruct (add_psk_broker s a b x) as [y [v|e|]]; discriminate.
    - destruct (listener_kept ok x I) as (_ & K). destruct (add_listener ok x) as [y [v|e|]]; try discriminate.
      injection E as <- <-. cbn [fst snd] in K. destruct (K v eq_refl). lia.
    - destruct (connection_kept ok x I) as (_ & K & _). destruct (add_connection ok x) as [y [v|e|]]; try discriminate.
      injection E as <- <-. cbn [fst snd] in K. destruct (K v eq_refl). lia.
    - destruct (poll_manager wf fo x) as [[y l] [v|e|]]; discriminate.
    - destruct (dispatch u w c x) as [y [v|e|]]; discriminate. }
  assert (forall x h x' j o t, ioinv x -> io_run x h x' -> nth_error h j = Some (o, Ok (OToken t)) -> io_counter x <= t) as G2.
  { clear - G. intros x h x' j o t I R. revert j I. induction R as [x|x o1 x1 r h x2 E NP R IH]; intros [|j] I H; try discriminate.
    - injection H as -> ->. now apply G in E.
    - destruct (exec_kept o1 x I) as (I1 & L1). rewrite E in I1, L1. cbn [fst] in *. specialize (IH j I1 H). lia. }
  induction R as [x|x o x1 r h x2 E NP R IH]; intros i j L Hi Hj; [destruct i; discriminate|].
  destruct (exec_kept o x Rx) as (I1 & L1). rewrite E in I1, L1. cbn [fst] in *.
  destruct i as [|i], j as [|j]; try lia; cbn [nth_error] in *.
  - injection Hi as -> ->. apply G in E; [|exact Rx]. pose proof (G2 _ _ _ _ _ _ I1 R Hj). lia.
  - apply (IH I1 i j); auto. lia.
Qed.
Print Assumptions C29_never_twice.

(** Hence registering a socket, a listener, a connection or a broker never trips the assertion
    that the token is new. *)
Theorem C29_registration_never_panics : forall x, io_reachable x -> forall ok obj w,
  snd (register_listen_socket ok x) <> Panic /\ snd (register_broker obj ok x) <> Panic /\
  snd (add_listener ok x) <> Panic /\ snd (add_connection ok x) <> Panic /\ snd (accept_all w x) <> Panic.
Proof.
  intros x R ok obj w. apply reachable_ioinv in R.
  split; [apply listen_kept; exact R|]. split; [apply broker_kept; exact R|].
  split; [apply listener_kept; exact R|]. split; [apply connection_kept; exact R|].
  apply accept_all_kept; exact R.
Qed.
Print Assumptions C29_registration_never_panics.

(** A UDP socket's token leads to that socket for ever after. *)
Theorem C29_socket_events : forall x x1 t h x2 w c, io_reachable x ->
  register_listen_socket true x = (x1, Ok t) -> io_run x1 h x2 ->
  dispatch t w c x2 = (x2, Ok (LSocket (io_sockets x))).
Proof.
  intros x x1 t h x2 w c R E Ru. apply reachable_ioinv in R.
  assert (ioinv x1) as I1 by (destruct (listen_kept true x R) as (((K & _) & _) & _); now rewrite E in K).
  assert (mget t (io_index x1) = Some (SrcSocket (io_sockets x))) as H0.
  { unfold register_listen_socket, dispense in E. cbn [negb] in E. unfold register_io_source in E. sub.
    rewrite (dispense_fresh x R) in E. injection E as <- <-. sub. now rewrite mget_mset, Nat.eqb_refl. }
  assert (forall i x h x', io_run x h x' -> ioinv x -> mget t (io_index x) = Some (SrcSocket i) ->
     mget t (io_index x') = Some (SrcSocket i)) as G.
  { clear. intros i x h x' Ru.
    induction Ru as [x|x o x1 r h x2 E NP Ru IH]; intros I H; [exact H|].
    assert (ioinv x1) as I1 by (destruct (exec_kept o x I) as (K & _); now rewrite E in K).
    apply IH; [exact I1|]. clear IH Ru h x2.
    pose proof (n_keys x I t _ H) as Lt.
    assert (forall v s m, mget t m = Some v -> t <> s -> forall u : iosrc, mget t (mset s u m) = Some v) as Hset.
    { intros v s m Hm Hs u. rewrite mget_mset. destruct (Nat.eqb_spec t s); [contradiction|exact Hm]. }
    assert (forall ok y, ioinv y -> mget t (io_index y) = Some (SrcSocket i) ->
       mget t (io_index (fst (add_connection ok y))) = Some (SrcSocket i)) as Hconn.
    { intros ok y Iy Hy. pose proof (n_keys y Iy t _ Hy) as Ly. unfold add_connection, dispense. destruct ok; cbn [negb fst]; sub; [|congruence].
      unfold register_io_source. sub. destruct (mget (io_counter y) (io_index y)); cbn [fst]; sub; apply Hset; try congruence; lia. }
    assert (forall obj ok y, ioinv y -> mget t (io_index y) = Some (SrcSocket i) ->
       mget t (io_index (fst (register_broker obj ok y))) = Some (SrcSocket i)) as Hbrk.
    { intros obj ok y Iy Hy. pose proof (n_keys y Iy t _ Hy) as Ly. unfold register_broker, dispense. sub.
      destruct (mget (length (io_brokers y)) (io_brokers y)); cbn [fst]; sub; [exact Hy|].
      rewrite mget_mset, Nat.eqb_refl. destruct ok; cbn [negb fst]; sub; [|exact Hy].
      unfold register_io_source. sub. destruct (mget (io_counter y) (io_index y)); cbn [fst]; sub; apply Hset; try congruence; lia. }
    assert (forall p ok y, ioinv y -> mget t (io_index y) = Some (SrcSocket i) ->
       mget t (io_index (fst (unregister_broker p ok y))) = Some (SrcSocket i)) as Hun.
    { intros p ok y Iy Hy. unfold unregister_broker. destruct (mget p (io_brokers y)) as [b|] eqn:Eb; [|exact Hy].
      destruct (br_token b) as [u|] eqn:Eu; cbn [fst]; sub; [|exact Hy].
      assert (mget t (mdel u (io_index y)) = Some (SrcSocket i)) as Hd.
      { rewrite mget_mdel. destruct (Nat.eqb_spec t u) as [->|]; [|exact Hy].
        pose proof (n_brk y Iy p b u Eb Eu _ Hy). discriminate. }
      unfold unregister_io_source. sub. destruct (mget u (io_index y)); [destruct ok|]; cbn [fst]; sub; exact Hd. }
    unfold io_exec in E. destruct o as [ok|obj ok|p ok|s a b|ok|ok|wf fo|u w c].
    - unfold register_listen_socket, dispense in E. destruct ok; cbn [negb] in E; [|injection E as <- _; sub; exact H].
      unfold register_io_source in E. sub. rewrite (dispense_fresh x I) in E. injection E as <- _. sub. apply Hset; [exact H|lia].
    - specialize (Hbrk obj ok x I H). destruct (register_broker obj ok x). injection E as <- _. exact Hbrk.
    - specialize (Hun p ok x I H). destruct (unregister_broker p ok x). injection E as <- _. exact Hun.
    - unfold add_psk_broker in E. destruct s as [obj|]; [|injection E as <- _; exact H].
      destruct (length (io_brokers x)) as [|n]; [injection E as <- _; exact H|].
      specialize (Hun n a x I H). pose proof (unbroker_kept n a x I) as (I2 & _).
      destruct (unregister_broker n a x) as [y [v|e|]]; cbn [fst] in *;
        [|injection E as <- _; exact Hun|injection E as <- _; exact Hun].
      specialize (Hbrk obj b y I2 Hun).
      destruct (register_broker obj b y) as [z [v2|e|]]; injection E as <- _; exact Hbrk.
    - unfold add_listener, dispense in E. destruct ok; cbn [negb] in E; [|injection E as <- _; sub; exact H].
      unfold register_io_source in E. sub. rewrite (dispense_fresh x I) in E. injection E as <- _. sub. apply Hset; [exact H|lia].
    - specialize (Hconn ok x I H). destruct (add_connection ok x). injection E as <- _. exact Hconn.
    - assert (forall y, y = fst (fst (poll_manager wf fo x)) -> ioinv y /\ mget t (io_index y) = Some (SrcSocket i)) as Hm.
      { intros y ->. apply (manager_keeps (fun y => ioinv y /\ mget t (io_index y) = Some (SrcSocket i))).
        - intros ok y (Iy & Hy). split; [apply connection_kept; exact Iy|now apply Hconn].
        - intros k c y (Iy & Hy). split; [apply poll_kept; exact Iy|].
          unfold poll_particular_connection. destruct (nth_error (io_conns y) k) as [[d|]|] eqn:En; try exact Hy.
          destruct c; try exact Hy. unfold unregister_io_source. sub.
          destruct (tokens_upd k d _ En) as (a & b & E1 & _).
          destruct (n_conn y Iy (cn_token d)) as (_ & j & Hj); [rewrite E1; apply in_app_iff; right; now left|].
          rewrite Hj. sub. rewrite mget_mdel.
          destruct (Nat.eqb_spec t (cn_token d)) as [Ed|]; [|exact Hy]. congruence.
        - auto. }
      specialize (Hm _ eq_refl). destruct (poll_manager wf fo x) as [[y l] r0]. injection E as <- _. apply Hm.
    - unfold dispatch in E. destruct (mget u (io_index x)) as [[|j|p|j|j]|] eqn:Eu; try (injection E as <- _; exact H).
      + destruct (Nat.ltb j (io_sockets x)); injection E as <- _; exact H.
      + destruct (mget p (io_brokers x)); injection E as <- _; exact H.
      + unfold accept_from in E. destruct (Nat.ltb j (io_listeners x)); [|injection E as <- _; exact H].
        assert (mget t (io_index (fst (accept_all w x))) = Some (SrcSocket i)) as Ha.
        { apply (accept_all_keeps (fun y => ioinv y /\ mget t (io_index y) = Some (SrcSocket i))); [|auto].
          intros ok y (Iy & Hy). split; [apply connection_kept; exact Iy|now apply Hconn]. }
        destruct (accept_all w x) as [y [v|e|]]; injection E as <- _; exact Ha.
      + now elim (n_noconn x I u j). }
  assert (mget t (io_index x2) = Some (SrcSocket (io_sockets x))) as H2 by (eapply G; eauto).
  assert (ioinv x2) as I2 by (eapply run_kept; eauto).
  unfold dispatch. rewrite H2. pose proof (n_sock x2 I2 t _ H2) as L. apply Nat.ltb_lt in L. now rewrite L.
Qed.
Print Assumptions C29_socket_events.

(** For the examples: running a list of operations. *)
Fixpoint play (ops : list io_op) (x : io) : list (io_op * res io_err io_out) * io :=
  match ops with
  | [] => ([], x)
  | o :: l => let (x1, r) := io_exec o x in let (h, x2) := play l x1 in ((o, r) :: h, x2)
  end.
Lemma play_run ops x :
  forallb (fun e => match snd e with Panic => false | _ => true end) (fst (play ops x)) = true ->
  io_run x (fst (play ops x)) (snd (play ops x)).
Proof.
  revert x. induction ops as [|o ops IH]; intros x H; cbn [play] in *; [constructor|].
  destruct (io_exec o x) as [x1 r] eqn:E. specialize (IH x1). destruct (play ops x1) as [h x2]. cbn [fst snd forallb] in *.
  apply andb_true_iff in H. destruct H as [H1 H2]. econstructor; [exact E| |auto]. now intros ->.
Qed.
Ltac plays ops n := let R := fresh "R" in
  pose proof (play_run ops (io_new n) eq_refl) as R; vm_compute in R; exact R.

(** The hypotheses above are met: two sockets, a third one added later, and an event on its token. *)
Example C29_nonvacuous :
  let x := io_new 2 in
  io_reachable x /\ snd (register_listen_socket true x) = Ok 3 /\
  let x1 := fst (register_listen_socket true x) in
  dispatch 3 [] Polled x1 = (x1, Ok (LSocket 2)) /\
  snd (io_exec (IListener true) x1) = Ok (OToken 4) /\
  snd (io_exec (IConnection true) (fst (io_exec (IListener true) x1))) = Ok (OToken 5).
Proof. cbv zeta. split; [exists 2, []; constructor|]. repeat split. Qed.

(** * C30 *)

(** As stated it fails.  With brokers registered under pointers 0 and 1 and the first of them
    removed, a third registration takes the second broker's pointer: it is refused, but pointer
    1 now leads to the refused broker, and so does the token of the second one; removing it
    makes the server panic. *)
Theorem C30_overwritten_refuted :
  exists x x' x'', io_reachable x /\
    option_map br_obj (mget 1 (io_brokers x)) = Some 11 /\
    register_broker 12 true x = (x', Err IoBrokerExists) /\
    option_map br_obj (mget 1 (io_brokers x')) = Some 12 /\
    dispatch 2 [] Polled x = (x, Ok (LBroker {| br_obj := 11; br_token := Some 2 |})) /\
    dispatch 2 [] Polled x' = (x', Ok (LBroker {| br_obj := 12; br_token := None |})) /\
    unregister_broker 1 true x' = (x'', Panic).
Proof.
  set (x := fst (io_exec (IUnbroker 0 true) (fst (io_exec (IBroker 11 true) (fst (io_exec (IBroker 10 true) (io_new 0))))))).
  exists x. exists (fst (register_broker 12 true x)).
  exists (fst (unregister_broker 1 true (fst (register_broker 12 true x)))).
  split.
  { exists 0. eexists. eapply (ir_cons _ (IBroker 10 true)); [reflexivity|discriminate|].
    eapply (ir_cons _ (IBroker 11 true)); [reflexivity|discriminate|].
    eapply (ir_cons _ (IUnbroker 0 true)); [reflexivity|discriminate|]. constructor. }
  repeat split.
Qed.
Print Assumptions C30_overwritten_refuted.

(** A registration that the system refuses leaves a broker that cannot be removed: the next
    request to replace the broker makes the server panic. *)
Theorem C30_failed_registration_refuted :
  exists x, io_reachable x /\ snd (add_psk_broker (Some 11) true true x) = Panic /\
    exists h, io_run (io_new 0) h x /\
      h = [(IBroker 10 true, Ok (OPtr 0)); (IPskBroker (Some 11) true false, Ok (OStatus 2))].
Proof.
  set (x := fst (io_exec (IPskBroker (Some 11) true false) (fst (io_exec (IBroker 10 true) (io_new 0))))).
  assert (io_run (io_new 0) [(IBroker 10 true, Ok (OPtr 0)); (IPskBroker (Some 11) true false, Ok (OStatus BROKER_INTERNAL_ERROR))] x) as R.
  { eapply ir_cons; [reflexivity|discriminate|]. eapply ir_cons; [reflexivity|discriminate|]. constructor. }
  exists x. split; [exists 0; eexists; exact R|]. split; [reflexivity|]. eexists. split; [exact R|reflexivity].
Qed.
Print Assumptions C30_failed_registration_refuted.

(** So does a request to replace the broker of a server that has none. *)
Theorem C30_no_broker_refuted : forall n obj a b, snd (add_psk_broker (Some obj) a b (io_new n)) = Panic.
Proof. reflexivity. Qed.
Print Assumptions C30_no_broker_refuted.

(** What does hold, in every state: removing a broker, whether that works or not, leaves all
    others under their pointers. *)
Theorem C30_unregister_partial : forall x p q ok, q <> p ->
  mget q (io_brokers (fst (unregister_broker p ok x))) = mget q (io_brokers x).
Proof.
  intros x p q ok N. unfold unregister_broker. destruct (mget p (io_brokers x)) as [b|]; [|reflexivity].
  assert (mget q (mdel p (io_brokers x)) = mget q (io_brokers x)) as H.
  { rewrite mget_mdel. destruct (Nat.eqb_spec q p); [contradiction|reflexivity]. }
  destruct (br_token b) as [t|]; sub; [|exact H]. unfold unregister_io_source. sub.
  destruct (mget t (io_index x)); [destruct ok|]; sub; exact H.
Qed.
Print Assumptions C30_unregister_partial.

(** And while registrations succeed and only the newest broker is removed or replaced, the
    brokers form a stack: [stack_step] is the specification, [None] standing for an operation
    outside this discipline. *)
Definition stack_step (o : io_op) (st : list nat) : option (list nat) :=
  match o with
  | IBroker obj ok => if ok then Some (st ++ [obj]) else None
  | IUnbroker p ok => if ok && Nat.eqb (S p) (length st) then Some (removelast st) else None
  | IPskBroker None _ _ => Some st
  | IPskBroker (Some obj) a b =>
      if a && b && negb (Nat.eqb (length st) 0) then Some (removelast st ++ [obj]) else None
  | _ => Some st
  end.
Fixpoint stack_run (ops : list io_op) (st : list nat) : option (list nat) :=
  match ops with
  | [] => Some st
  | o :: l => match stack_step o st with Some st' => stack_run l st' | None => None end
  end.

Record stacked (st : list nat) (x : io) : Prop := {
  k_len : length (io_brokers x) = length st;
  k_get : forall p, match nth_error st p with
    | Some obj => exists t, mget p (io_brokers x) = Some {| br_obj := obj; br_token := Some t |} /\
        mget t (io_index x) = Some (SrcBroker p)
    | None => mget p (io_brokers x) = None
    end
}.

Lemma mdel_absent {A} k (m : map_t A) : mget k m = None -> mdel k m = m.
Proof.
  unfold mdel. induction m as [|[i v] m IH]; cbn; [reflexivity|].
  destruct (Nat.eqb_spec k i); [discriminate|]. cbn. intros H. now rewrite IH.
Qed.
Lemma mdel_length {A} k (m : map_t A) : NoDup (keys m) -> mget k m <> None -> S (length (mdel k m)) = length m.
Proof.
  induction m as [|[i v] m IH]; intros N H; [now elim H|].
  inversion N as [|? ? N1 N2]; subst. cbn [mget] in H. unfold mdel in *. cbn.
  destruct (Nat.eqb_spec k i) as [->|Ne]; cbn.
  - f_equal. change (length (mdel i m) = length m). rewrite mdel_absent; [reflexivity|].
    destruct (mget i m) eqn:E; [|reflexivity]. elim N1. apply mget_keys. congruence.
  - f_equal. apply IH; auto.
Qed.

Lemma stacked_register st x obj : ioinv x -> stacked st x ->
  exists x', register_broker obj true x = (x', Ok (length st)) /\ stacked (st ++ [obj]) x'.
Proof.
  intros I [L G]. pose proof (dispense_fresh x I) as Fr.
  assert (mget (length st) (io_brokers x) = None) as Hn.
  { specialize (G (length st)). rewrite (proj2 (nth_error_None st (length st))) in G; [exact G|lia]. }
  unfold register_broker. sub. rewrite L, Hn. unfold dispense. sub. rewrite mget_mset, Nat.eqb_refl. cbn [negb br_obj].
  unfold register_io_source. sub. rewrite Fr. eexists. split; [reflexivity|]. split; sub.
  - unfold mset at 1. cbn [length]. rewrite app_length. cbn [length].
    assert (S (length (mdel (length st) (mset (length st) {| br_obj := obj; br_token := None |} (io_brokers x)))) = S (length (io_brokers x))) as E.
    { rewrite mdel_length; [|apply nodup_mset, (n_bnodup x I)|rewrite mget_mset, Nat.eqb_refl; discriminate].
      unfold mset. cbn [length]. now rewrite mdel_absent. }
    lia.
  - intros p. rewrite !mget_mset. destruct (Nat.eqb_spec p (length st)) as [->|N].
    + rewrite nth_error_app2, Nat.sub_diag by lia. cbn [nth_error]. eexists. split; [reflexivity|].
      now rewrite mget_mset, Nat.eqb_refl.
    + specialize (G p). destruct (Nat.lt_ge_cases p (length st)) as [Lp|Lp].
      * rewrite nth_error_app1 by lia. destruct (nth_error st p) as [o|] eqn:E; [|apply nth_error_None in E; lia].
        destruct G as (t & G1 & G2). exists t. split; [exact G1|]. rewrite mget_mset.
        destruct (Nat.eqb_spec t (io_counter x)); [congruence|exact G2].
      * rewrite nth_error_app2 by lia. replace (p - length st) with (S (p - length st - 1)) by lia. cbn [nth_error].
        rewrite (proj2 (nth_error_None st p) Lp) in G.
        destruct (p - length st - 1); cbn [nth_error]; exact G.
Qed.

Lemma stacked_unregister st x o : ioinv x -> stacked (st ++ [o]) x ->
  exists x', unregister_broker (length st) true x = (x', Ok tt) /\ stacked st x'.
Proof.
  intros I [L G]. rewrite app_length in L. cbn [length] in L.
  pose proof (G (length st)) as Gp. rewrite nth_error_app2, Nat.sub_diag in Gp by lia. cbn [nth_error] in Gp.
  destruct Gp as (t & G1 & G2).
  unfold unregister_broker. rewrite G1. cbn [br_token]. unfold unregister_io_source. sub. rewrite G2.
  eexists. split; [reflexivity|]. split; sub.
  - assert (S (length (mdel (length st) (io_brokers x))) = length (io_brokers x)) as E.
    { apply mdel_length; [apply (n_bnodup x I)|congruence]. }
    lia.
  - intros p. rewrite mget_mdel. destruct (Nat.eqb_spec p (length st)) as [->|N].
    + now rewrite (proj2 (nth_error_None st (length st))) by lia.
    + specialize (G p). destruct (Nat.lt_ge_cases p (length st)) as [Lp|Lp].
      * rewrite nth_error_app1 in G by lia. destruct (nth_error st p) as [o'|] eqn:E; [|apply nth_error_None in E; lia].
        destruct G as (u & H1 & H2). exists u. split; [exact H1|]. rewrite mget_mdel.
        destruct (Nat.eqb_spec u t) as [->|]; [|exact H2]. congruence.
      * rewrite nth_error_app2 in G by lia. rewrite (proj2 (nth_error_None st p) Lp).
        replace (p - length st) with (S (p - length st - 1)) in G by lia. cbn [nth_error] in G.
        destruct (p - length st - 1); exact G.
Qed.

Lemma stacked_index st x y : stacked st x -> io_brokers y = io_brokers x ->
  (forall t p, mget t (io_index x) = Some (SrcBroker p) -> mget t (io_index y) = Some (SrcBroker p)) -> stacked st y.
Proof.
  intros [L G] E H. split; rewrite E; [exact L|]. intros p. specialize (G p).
  destruct (nth_error st p); [|exact G]. destruct G as (t & G1 & G2). exists t. auto.
Qed.

Lemma stacked_connection st ok x : ioinv x -> stacked st x -> stacked st (fst (add_connection ok x)).
Proof.
  intros I K. pose proof (dispense_fresh x I) as Fr. unfold add_connection, dispense, register_io_source.
  destruct ok; cbn [negb]; sub; [rewrite Fr|]; (apply (stacked_index st x); [exact K|reflexivity|]); sub; auto.
  intros t p Q. rewrite mget_mset. destruct (Nat.eqb_spec t (io_counter x)); [congruence|exact Q].
Qed.

Lemma stacked_poll st i c x : ioinv x -> stacked st x -> stacked st (fst (poll_particular_connection i c x)).
Proof.
  intros I K. unfold poll_particular_connection. destruct (nth_error (io_conns x) i) as [[d|]|] eqn:En; try exact K.
  destruct c; try exact K. unfold unregister_io_source. sub.
  destruct (tokens_upd i d _ En) as (a & b & E1 & _).
  destruct (n_conn x I (cn_token d)) as (_ & j & Hj); [rewrite E1; apply in_app_iff; right; now left|].
  rewrite Hj. sub. apply (stacked_index st x); [exact K|reflexivity|]. sub.
  intros t p Q. rewrite mget_mdel. destruct (Nat.eqb_spec t (cn_token d)); [congruence|exact Q].
Qed.

Lemma removelast_app1 {A} (l : list A) a : removelast (l ++ [a]) = l.
Proof. rewrite removelast_app by discriminate. cbn. apply app_nil_r. Qed.
Lemma snoc_cases {A} (l : list A) : l = [] \/ exists k a, l = k ++ [a].
Proof.
  induction l as [|a l IH] using rev_ind; [now left|right; now exists l, a].
Qed.

(** What [register_broker] and the like answer, per the specification. *)
Definition stack_answer (o : io_op) (st : list nat) (r : res io_err io_out) : Prop :=
  match o with
  | IBroker _ _ => r = Ok (OPtr (length st))
  | IUnbroker _ _ => r = Ok ODone
  | IPskBroker None _ _ => r = Ok (OStatus 1)
  | IPskBroker (Some _) _ _ => r = Ok (OStatus 0)
  | _ => True
  end.

Lemma stacked_exec o st st' x : ioinv x -> stacked st x -> stack_step o st = Some st' ->
  stacked st' (fst (io_exec o x)) /\ stack_answer o st (snd (io_exec o x)).
Proof.
  intros I K E. pose proof (dispense_fresh x I) as Fr.
  assert (forall obj, exists x', add_psk_broker (Some obj) true true x = (x', Ok BROKER_OK) /\
            stacked (removelast st ++ [obj]) x' \/ st = []) as Hpsk.
  { intros obj. destruct (snoc_cases st) as [->|(k & a & ->)]; [exists x; now right|].
    unfold add_psk_broker. pose proof (k_len _ _ K) as L. rewrite app_length in L. cbn [length] in L.
    rewrite L. replace (length k + 1) with (S (length k)) by lia.
    destruct (stacked_unregister k x a I K) as (x1 & E1 & K1).
    assert (ioinv x1) as I1 by (pose proof (unbroker_kept (length k) true x I) as (J & _); now rewrite E1 in J).
    destruct (stacked_register k x1 obj I1 K1) as (x2 & E2 & K2).
    exists x2. left. rewrite E1, E2, removelast_app1. auto. }
  destruct o as [ok|obj ok|p ok|s a b|ok|ok|wf fo|u w c]; cbn [stack_step stack_answer] in *; unfold io_exec.
  - injection E as <-. split; [|exact Logic.I]. unfold register_listen_socket, dispense, register_io_source.
    destruct ok; cbn [negb]; sub; [rewrite Fr|]; cbn [rmap]; (apply (stacked_index st x); [exact K|reflexivity|]); sub; auto.
    intros t p Q. rewrite mget_mset. destruct (Nat.eqb_spec t (io_counter x)); [congruence|exact Q].
  - destruct ok; [|discriminate]. injection E as <-.
    destruct (stacked_register st x obj I K) as (x' & E1 & K1). rewrite E1. auto.
  - destruct ok; [|discriminate]. cbn [andb] in E. destruct (Nat.eqb_spec (S p) (length st)) as [Ep|]; [|discriminate].
    injection E as <-. destruct (snoc_cases st) as [->|(k & a & ->)]; [discriminate|].
    rewrite removelast_app1. rewrite app_length in Ep. cbn [length] in Ep. replace p with (length k) by lia.
    destruct (stacked_unregister k x a I K) as (x' & E1 & K1). rewrite E1. auto.
  - destruct s as [obj|]; [|injection E as <-; auto].
    destruct a, b; try discriminate. cbn [andb] in E.
    destruct (Nat.eqb_spec (length st) 0) as [|Ne]; [discriminate|]. injection E as <-.
    destruct (Hpsk obj) as (x' & [(E1 & K1)|E1]); [rewrite E1; auto|now subst].
  - injection E as <-. split; [|exact Logic.I]. unfold add_listener, dispense, register_io_source.
    destruct ok; cbn [negb]; sub; [rewrite Fr|]; cbn [rmap]; (apply (stacked_index st x); [exact K|reflexivity|]); sub; auto.
    intros t p Q. rewrite mget_mset. destruct (Nat.eqb_spec t (io_counter x)); [congruence|exact Q].
  - injection E as <-. split; [|exact Logic.I]. pose proof (stacked_connection st ok x I K) as H.
    destruct (add_connection ok x); exact H.
  - injection E as <-. split; [|exact Logic.I].
    assert (ioinv (fst (fst (poll_manager wf fo x))) /\ stacked st (fst (fst (poll_manager wf fo x)))) as [_ H].
    { apply (manager_keeps (fun y => ioinv y /\ stacked st y)); [..|auto].
      - intros ok y (Iy & Hy). split; [apply connection_kept; exact Iy|now apply stacked_connection].
      - intros k c y (Iy & Hy). split; [apply poll_kept; exact Iy|now apply stacked_poll]. }
    destruct (poll_manager wf fo x) as [[y l] r]. exact H.
  - injection E as <-. split; [|exact Logic.I].
    unfold dispatch. destruct (mget u (io_index x)) as [[|i|p|i|i]|] eqn:Eu; try exact K.
    + destruct (Nat.ltb i (io_sockets x)); exact K.
    + destruct (mget p (io_brokers x)); exact K.
    + unfold accept_from. destruct (Nat.ltb i (io_listeners x)); [|exact K].
      assert (ioinv (fst (accept_all w x)) /\ stacked st (fst (accept_all w x))) as [_ H].
      { apply (accept_all_keeps (fun y => ioinv y /\ stacked st y)); [|auto].
        intros ok y (Iy & Hy). split; [apply connection_kept; exact Iy|now apply stacked_connection]. }
      destruct (accept_all w x) as [y [v|e|]]; exact H.
    + now elim (n_noconn x I u i).
Qed.

Theorem C30_stack_partial : forall n h x st,
  io_run (io_new n) h x -> stack_run (map fst h) [] = Some st ->
  (forall p, option_map br_obj (mget p (io_brokers x)) = nth_error st p) /\
  (forall p b, mget p (io_brokers x) = Some b -> exists t, br_token b = Some t /\
     forall w c, dispatch t w c x = (x, Ok (LBroker b))) /\
  (forall o st', stack_step o st = Some st' -> stack_answer o st (snd (io_exec o x))).
Proof.
  intros n h x st R E.
  assert (forall y st0, io_run y h x -> ioinv y -> stacked st0 y -> stack_run (map fst h) st0 = Some st ->
            stacked st x) as G.
  { clear. intros y st0 R. revert st0. induction R as [x|x o x1 r h x2 Ex NP R IH]; intros st0 I K E; cbn [map stack_run fst] in E.
    - now injection E as <-.
    - destruct (stack_step o st0) as [st1|] eqn:Es; [|discriminate].
      destruct (stacked_exec o st0 st1 x I K Es) as (K1 & _). destruct (exec_kept o x I) as (I1 & _).
      rewrite Ex in K1, I1. now apply (IH st1). }
  assert (stacked [] (io_new n)) as K0.
  { split; [reflexivity|]. intros [|p]; reflexivity. }
  specialize (G _ [] R (new_inv n) K0 E).
  assert (ioinv x) as I by (apply (run_kept _ _ _ R), new_inv).
  split; [|split].
  - intros p. pose proof (k_get _ _ G p) as H. destruct (nth_error st p).
    + destruct H as (t & -> & _). reflexivity.
    + now rewrite H.
  - intros p b Hb. pose proof (k_get _ _ G p) as H. destruct (nth_error st p) as [obj|]; [|congruence].
    destruct H as (t & H1 & H2). rewrite H1 in Hb. injection Hb as <-. exists t. split; [reflexivity|].
    intros w c. unfold dispatch. now rewrite H2, H1.
  - intros o st' Es. now apply (stacked_exec o st st' x I G).
Qed.
Print Assumptions C30_stack_partial.

(** A history inside the discipline: two brokers, the second one replaced, then removed. *)
Example C30_nonvacuous :
  exists h x, io_run (io_new 1) h x /\
    map fst h = [IBroker 10 true; IListen true; IBroker 11 true; IPskBroker (Some 12) true true; IUnbroker 1 true; IBroker 13 true] /\
    stack_run (map fst h) [] = Some [10; 13] /\
    map snd h = [Ok (OPtr 0); Ok (OToken 3); Ok (OPtr 1); Ok (OStatus 0); Ok ODone; Ok (OPtr 1)].
Proof.
  eexists. eexists. split.
  { plays [IBroker 10 true; IListen true; IBroker 11 true; IPskBroker (Some 12) true true; IUnbroker 1 true; IBroker 13 true] 1. }
  split; [reflexivity|]. split; reflexivity.
Qed.

(** * C36 *)

(** No event ever makes the server look at an API connection: connections are entered in the
    index as listeners. *)
Theorem C36_events_refuted : forall x t w out x' c, io_reachable x ->
  dispatch t w out x <> (x', Ok (LConnection c)).
Proof.
  intros x t w out x' c R. apply reachable_ioinv in R. unfold dispatch.
  destruct (mget t (io_index x)) as [[|i|p|i|i]|] eqn:E; try discriminate.
  - destruct (Nat.ltb i (io_sockets x)); discriminate.
  - destruct (mget p (io_brokers x)); discriminate.
  - destruct (accept_from i w x) as [y [v|e|]]; discriminate.
  - now elim (n_noconn x R t i).
Qed.
Print Assumptions C36_events_refuted.

(** Accepting a second connection moves the first one to another slot. *)
Theorem C36_slot_refuted : forall n, exists x x', io_reachable x /\
  add_connection true x = (x', Ok (S n + 2)) /\
  nth_error (io_conns x) 0 = Some (Some {| cn_token := S n + 1 |}) /\
  nth_error (io_conns x') 0 = Some (Some {| cn_token := S n + 2 |}) /\
  nth_error (io_conns x') 1 = Some (Some {| cn_token := S n + 1 |}).
Proof.
  intros n. set (y := fst (io_exec (IListener true) (io_new n))).
  assert (io_reachable y) as Ry.
  { exists n. eexists. eapply (ir_cons _ (IListener true)); [apply surjective_pairing| |constructor].
    unfold io_exec. destruct (listener_kept true (io_new n) (new_inv n)) as ((_ & NP) & _).
    destruct (add_listener true (io_new n)) as [z [v|e|]]; cbn [snd rmap] in *; [discriminate|discriminate|contradiction]. }
  assert (io_counter y = S n + 1 /\ io_conns y = []) as [Cy Ly].
  { unfold y, io_exec, add_listener, dispense, register_io_source. cbn [negb]. sub.
    destruct (mget _ _); cbn; split; reflexivity || lia. }
  pose proof (reachable_ioinv y Ry) as Iy.
  assert (exists x, add_connection true y = (x, Ok (S n + 1)) /\ io_conns x = [Some {| cn_token := S n + 1 |}] /\
             io_counter x = S n + 2) as (x & Ex & Lx & Cx).
  { unfold add_connection, dispense, register_io_source. cbn [negb]. sub. rewrite (dispense_fresh y Iy), Cy, Ly.
    eexists. split; [reflexivity|]. split; [reflexivity|]. sub. lia. }
  assert (io_reachable x) as Rx.
  { destruct Ry as (m & h & R). exists m. exists (h ++ [(IConnection true, Ok (OToken (S n + 1)))]).
    clear - R Ex. revert R. generalize (io_new m). intros z R. induction R as [x0|x0 o x1 r h x2 E NP R IH]; cbn [app].
    - eapply ir_cons; [|discriminate|constructor]. unfold io_exec. now rewrite Ex.
    - econstructor; eauto. }
  pose proof (reachable_ioinv x Rx) as Ix. exists x.
  unfold add_connection, dispense, register_io_source. cbn [negb]. sub. rewrite (dispense_fresh x Ix), Cx, Lx.
  eexists. split; [exact Rx|]. split; [reflexivity|]. sub. repeat split.
Qed.
Print Assumptions C36_slot_refuted.

(** A client can make the server panic: it opens two connections, has the second one closed (by
    announcing a message that is too large), opens a third and sends anything on it. *)
Theorem C36_crash_refuted : exists x h, io_run (io_new 0) h x /\
  h = [(IListener true, Ok (OToken 1));
       (IEvent 1 [true] Polled, Ok (OLooked (LAccept 0)));
       (IEvent 1 [true] Polled, Ok (OLooked (LAccept 0)));
       (IPoll (fun _ => []) (fun i => match i with O => PolledClose | _ => Polled end),
          Ok (OPolled [{| cn_token := 3 |}; {| cn_token := 2 |}]));
       (IEvent 1 [true] Polled, Ok (OLooked (LAccept 0)))] /\
  nth_error (io_conns x) 1 = Some (Some {| cn_token := 4 |}) /\
  snd (dispatch 4 [] Polled x) = Panic.
Proof.
  eexists. eexists. split.
  { plays [IListener true; IEvent 1 [true] Polled; IEvent 1 [true] Polled; IPoll (fun _ => []) (fun i => match i with O => PolledClose | _ => Polled end); IEvent 1 [true] Polled] 0. }
  split; [reflexivity|]. split; reflexivity.
Qed.
Print Assumptions C36_crash_refuted.

(** What does hold: a connection sits in exactly one slot until it asks to be closed, whatever
    else happens ... *)
Definition slot_of (t i : nat) (x : io) : Prop := nth_error (io_conns x) i = Some (Some {| cn_token := t |}).

Lemma slot_tokens t x : In t (tokens (io_conns x)) <-> exists i, slot_of t i x.
Proof.
  unfold slot_of. induction (io_conns x) as [|[c|] l IH]; cbn [tokens].
  - split; [intros []|intros ([|i] & H); discriminate].
  - cbn [In]. rewrite IH. split.
    + intros [E|(i & H)]; [exists 0; destruct c; cbn in *; now subst|now exists (S i)].
    + intros ([|i] & H); [injection H as ->; now left|right; now exists i].
  - rewrite IH. split; [intros (i & H); now exists (S i)|intros ([|i] & H); [discriminate|now exists i]].
Qed.

Lemma tokens_unique l t i j : NoDup (tokens l) ->
  nth_error l i = Some (Some {| cn_token := t |}) -> nth_error l j = Some (Some {| cn_token := t |}) -> i = j.
Proof.
  revert i j. assert (forall l k, nth_error l k = Some (Some {| cn_token := t |}) -> In t (tokens l)) as K.
  { clear. induction l as [|[c|] l IH]; intros [|k] H; cbn in *; try discriminate; eauto.
    injection H as ->. now left. }
  induction l as [|[c|] l IH]; intros [|i] [|j] N Hi Hj; cbn in *; try discriminate; auto.
  - injection Hi as ->. inversion N; subst. elim H1. now apply K in Hj.
  - injection Hj as ->. inversion N; subst. elim H1. now apply K in Hi.
  - inversion N; subst. f_equal. eauto.
Qed.

(** Connection [t] is closed by operation [o] from [x]: a poll of all connections that finds it
    asking to be closed. *)
Definition closes (t : nat) (o : io_op) (x : io) : Prop :=
  exists w f x1 i, o = IPoll w f /\ accept_connections (io_listeners x) 0 w x = (x1, Ok tt) /\
    slot_of t i x1 /\ f i = PolledClose.

Lemma polls_token t f : forall n i x, ioinv x -> In t (tokens (io_conns x)) ->
  In t (tokens (io_conns (fst (fst (poll_connections n i f x))))) \/
  exists k, slot_of t k x /\ f k = PolledClose.
Proof.
  induction n as [|n IH]; intros i x I H; cbn [poll_connections]; [now left|].
  destruct (poll_kept i (f i) x I) as ((I1 & _) & _ & K).
  destruct (K t H) as [H1|(Hc & Hs)].
  - assert (forall k, slot_of t k (fst (poll_particular_connection i (f i) x)) -> slot_of t k x) as Back.
    { clear. intros k. unfold poll_particular_connection, slot_of, unregister_io_source.
      destruct (nth_error (io_conns x) i) as [[d|]|] eqn:E; auto. destruct (f i); auto. sub.
      assert (nth_error (upd i None (io_conns x)) k = Some (Some {| cn_token := t |}) ->
              nth_error (io_conns x) k = Some (Some {| cn_token := t |})) as U.
      { generalize (io_conns x). clear. intros l. revert i k. induction l as [|a l IH]; intros [|i] [|k]; cbn; auto; try discriminate.
        intros H. eapply IH. exact H. }
      destruct (mget _ _); sub; exact U. }
    destruct (poll_particular_connection i (f i) x) as [x1 [c|e|]]; cbn [fst] in *; [|now left|now left].
    specialize (IH (S i) x1 I1 H1). destruct (poll_connections n (S i) f x1) as [[y l] r]. cbn [fst] in *.
    destruct IH as [IH|(k & A & B)]; [now left|right; eauto].
  - right. exists i. split; [|exact Hc].
    unfold poll_particular_connection in Hs. unfold slot_of. rewrite Hc in Hs.
    destruct (nth_error (io_conns x) i) as [[d|]|] eqn:E; [|discriminate|discriminate].
    unfold unregister_io_source in Hs. sub. destruct (mget _ _); [|discriminate].
    cbn [snd] in Hs. now injection Hs as ->.
Qed.

Theorem C36_kept_partial : forall x o x' r t i, io_reachable x -> io_exec o x = (x', r) ->
  slot_of t i x -> ~ closes t o x -> exists! j, slot_of t j x'.
Proof.
  intros x o x' r t i R E S NC. apply reachable_ioinv in R.
  assert (ioinv x') as I' by (pose proof (exec_kept o x R) as (K & _); now rewrite E in K).
  assert (In t (tokens (io_conns x))) as H by (apply slot_tokens; now exists i).
  cut (In t (tokens (io_conns x'))).
  { intros H'. apply slot_tokens in H'. destruct H' as (j & Hj). exists j. split; [exact Hj|].
    intros k Hk. eapply tokens_unique; [apply (n_cnodup x' I')|exact Hj|exact Hk]. }
  assert (forall obj ok y, io_conns (fst (register_broker obj ok y)) = io_conns y) as Hbrk.
  { intros obj ok y. unfold register_broker, dispense, register_io_source. sub.
    destruct (mget (length (io_brokers y)) (io_brokers y)); [reflexivity|]. rewrite mget_mset, Nat.eqb_refl.
    destruct ok; cbn [negb]; [|reflexivity]. sub. destruct (mget _ _); reflexivity. }
  assert (forall p ok y, io_conns (fst (unregister_broker p ok y)) = io_conns y) as Hun.
  { intros p ok y. unfold unregister_broker, unregister_io_source. destruct (mget p (io_brokers y)) as [b|]; [|reflexivity].
    destruct (br_token b); [|reflexivity]. sub. destruct (mget _ _); [destruct ok|]; reflexivity. }
  unfold io_exec in E. destruct o as [ok|obj ok|p ok|s a b|ok|ok|wf fo|u w c].
  - unfold register_listen_socket, dispense, register_io_source in E. destruct ok; cbn [negb] in E; sub;
      [destruct (mget _ _)|]; injection E as <- _; sub; exact H.
  - specialize (Hbrk obj ok x). destruct (register_broker obj ok x). injection E as <- _. cbn [fst] in Hbrk. now rewrite Hbrk.
  - specialize (Hun p ok x). destruct (unregister_broker p ok x). injection E as <- _. cbn [fst] in Hun. now rewrite Hun.
  - unfold add_psk_broker in E. destruct s as [obj|]; [|injection E as <- _; exact H].
    destruct (length (io_brokers x)) as [|n]; [injection E as <- _; exact H|].
    specialize (Hun n a x). destruct (unregister_broker n a x) as [y [v|e|]]; cbn [fst] in Hun;
      [|injection E as <- _; now rewrite Hun|injection E as <- _; now rewrite Hun].
    specialize (Hbrk obj b y). destruct (register_broker obj b y) as [z [v2|e|]]; cbn [fst] in Hbrk;
      injection E as <- _; now rewrite Hbrk, Hun.
  - unfold add_listener, dispense, register_io_source in E. destruct ok; cbn [negb] in E; sub;
      [destruct (mget _ _)|]; injection E as <- _; sub; exact H.
  - destruct (connection_kept ok x R) as (_ & _ & K). destruct (add_connection ok x). injection E as <- _. now apply K.
  - unfold poll_manager in E.
    assert (forall n i y, ioinv y -> In t (tokens (io_conns y)) -> In t (tokens (io_conns (fst (accept_connections n i wf y))))) as HA.
    { clear. induction n as [|n IH]; intros i y I H; cbn [accept_connections]; [exact H|].
      unfold accept_from. destruct (Nat.ltb i (io_listeners y)); [|exact H].
      destruct (accept_all_kept (wf i) y I) as (((I1 & _) & _) & K). specialize (K t H).
      destruct (accept_all (wf i) y) as [z [v|e|]]; cbn [fst] in *; auto. }
    specialize (HA (io_listeners x) 0 x R H).
    pose proof (accepts_kept (io_listeners x) 0 wf x R ltac:(lia)) as ((I1 & _) & _).
    destruct (accept_connections (io_listeners x) 0 wf x) as [x1 [[]|e|]] eqn:Ea; cbn [fst] in *;
      [|injection E as <- _; exact HA|injection E as <- _; exact HA].
    destruct (polls_token t fo (length (io_conns x1)) 0 x1 I1 HA) as [G|(k & A & B)].
    + destruct (poll_connections (length (io_conns x1)) 0 fo x1) as [[y l] r0]. injection E as <- _. exact G.
    + elim NC. exists wf, fo, x1, k. auto.
  - destruct (dispatch_kept u w c x R) as (_ & K). destruct (dispatch u w c x). injection E as <- _. now apply K.
Qed.
Print Assumptions C36_kept_partial.

(** ... and a poll of all connections gets to it, provided no connection in an earlier slot
    fails; closing connections never makes the server panic. *)
Theorem C36_polled_partial : forall x w f x1 t i x' l r, io_reachable x ->
  accept_connections (io_listeners x) 0 w x = (x1, Ok tt) -> slot_of t i x1 ->
  (forall j, j < i -> f j <> PolledErr) -> poll_manager w f x = (x', l, r) ->
  In {| cn_token := t |} l /\ r <> Panic.
Proof.
  intros x w f x1 t i x' l r R Ea S NE P. apply reachable_ioinv in R. split.
  2:{ pose proof (manager_kept w f x R) as K. rewrite P in K. apply K. }
  unfold poll_manager in P. rewrite Ea in P.
  assert (ioinv x1) as I1 by (destruct (accepts_kept (io_listeners x) 0 w x R ltac:(lia)) as ((J & _) & _); now rewrite Ea in J).
  assert (i < length (io_conns x1)) as L by (apply nth_error_Some; unfold slot_of in S; congruence).
  clear Ea R x w.
  cut (forall n k y, ioinv y -> k <= i < k + n -> k + n <= length (io_conns y) -> slot_of t i y ->
         In {| cn_token := t |} (snd (fst (poll_connections n k f y)))).
  { intros G. specialize (G (length (io_conns x1)) 0 x1 I1 ltac:(lia) ltac:(lia) S). now rewrite P in G. }
  clear - NE. induction n as [|n IH]; intros k y I Lk Ln S; [lia|]. cbn [poll_connections].
  destruct (poll_kept k (f k) y I) as ((I1 & _) & NP & _). specialize (NP ltac:(lia)).
  pose proof (poll_length k (f k) y) as Len.
  destruct (Nat.eq_dec k i) as [->|Ne].
  - unfold slot_of in S. rewrite S.
    destruct (poll_particular_connection i (f i) y) as [y1 [c|e|]]; [|now left|now left].
    destruct (poll_connections n (Datatypes.S i) f y1) as [[z l] r]. now left.
  - assert (slot_of t i (fst (poll_particular_connection k (f k) y))) as S1.
    { unfold poll_particular_connection, slot_of, unregister_io_source in *.
      destruct (nth_error (io_conns y) k) as [[d|]|]; auto. destruct (f k); auto. sub.
      assert (nth_error (upd k None (io_conns y)) i = Some (Some {| cn_token := t |})) as U.
      { revert S Ne. generalize (io_conns y). clear. intros l. revert i k. induction l as [|a l IH]; intros [|i] [|k]; cbn; auto; try congruence. }
      destruct (mget _ _); sub; exact U. }
    assert (snd (poll_particular_connection k (f k) y) <> Err IoConnection) as NE1.
    { specialize (NE k ltac:(lia)). unfold poll_particular_connection, unregister_io_source.
      destruct (nth_error (io_conns y) k) as [[d|]|]; try discriminate. destruct (f k); try discriminate; [|contradiction].
      sub. destruct (mget _ _); discriminate. }
    assert (forall e, snd (poll_particular_connection k (f k) y) = Err e -> e = IoConnection) as OnlyE.
    { intros e. unfold poll_particular_connection, unregister_io_source.
      destruct (nth_error (io_conns y) k) as [[d|]|]; try discriminate. destruct (f k); try discriminate;
      [|now intros [= <-]]. sub. destruct (mget _ _); discriminate. }
    destruct (poll_particular_connection k (f k) y) as [y1 [c|e|]]; cbn [fst snd] in *.
    + specialize (IH (Datatypes.S k) y1 I1 ltac:(lia) ltac:(lia) S1).
      destruct (poll_connections n (Datatypes.S k) f y1) as [[z l] r]. cbn [fst snd] in *. apply in_app_iff. now right.
    + rewrite (OnlyE e eq_refl) in NE1. now elim NE1.
    + now elim NP.
Qed.
Print Assumptions C36_polled_partial.

(** Without that proviso it need not be polled. *)
Theorem C36_starved_refuted : exists x h f x', io_run (io_new 0) h x /\ slot_of 2 1 x /\
  f 1 = Polled /\ poll_manager (fun _ => []) f x = (x', [{| cn_token := 3 |}], Err IoConnection).
Proof.
  eexists. eexists. exists (fun i => match i with O => PolledErr | _ => Polled end). eexists. split.
  { plays [IListener true; IEvent 1 [true] Polled; IEvent 1 [true] Polled] 0. }
  split; [reflexivity|]. split; reflexivity.
Qed.
Print Assumptions C36_starved_refuted.

Example C36_nonvacuous : exists x h, io_run (io_new 0) h x /\ slot_of 2 1 x /\ slot_of 3 0 x /\
  poll_manager (fun _ => []) (fun _ => Polled) x = (x, [{| cn_token := 3 |}; {| cn_token := 2 |}], Ok tt) /\
  ~ closes 2 (IPoll (fun _ => []) (fun i => match i with O => PolledClose | _ => Polled end)) x.
Proof.
  eexists. eexists. split.
  { plays [IListener true; IEvent 1 [true; true] Polled] 0. }
  split; [reflexivity|]. split; [reflexivity|]. split; [reflexivity|].
  intros (w & f & x1 & i & [= <- <-] & E & S & F). cbn in E. injection E as <-.
  destruct i; [discriminate S|discriminate F].
Qed.
