(** Properties of file descriptors: C81 to C84. *)
From Coq Require Import ZArith.
From Verif Require Import Base Fds.

Lemma lowest_some t i n m : lowest t i n = Some m -> i <= m < i + n /\ t m = None.
Proof.
  revert i. induction n as [|n IH]; intros i H; cbn [lowest] in H; [discriminate H|].
  destruct (t i) eqn:E; [apply IH in H; intuition lia|]. assert (i = m) by congruence. subst. split; [lia|exact E].
Qed.
Lemma lowest_none t i n m : lowest t i n = None -> i <= m < i + n -> t m <> None.
Proof.
  revert i. induction n as [|n IH]; intros i H L; cbn [lowest] in H; [lia|].
  destruct (t i) eqn:E; [|discriminate H]. destruct (Nat.eq_dec i m) as [<-|N]; [congruence|]. apply (IH _ H). lia.
Qed.
Lemma upd_same t n e : upd t n e n = e.
Proof. unfold upd. now rewrite Nat.eqb_refl. Qed.
Lemma upd_other t n e m : m <> n -> upd t n e m = t m.
Proof. unfold upd. intros N. now rewrite (proj2 (Nat.eqb_neq _ _) N). Qed.
Lemma fault_tab k k' e : fault k = (k', e) -> tab k' = tab k /\ limit k' = limit k.
Proof. unfold fault. destruct (faults k); intros H; assert (k' = fst (k', e)) by reflexivity; rewrite <- H in H0; subst k'; auto. Qed.

Lemma dupfd_ok k z i k' n : dupfd k z i = (k', Ok n) ->
  exists f c, (0 <= z)%Z /\ tab k (Z.to_nat z) = Some (f, c) /\ i <= n < limit k /\ tab k n = None /\
    tab k' = upd (tab k) n (Some (f, true)) /\ limit k' = limit k.
Proof.
  unfold dupfd. destruct (fault k) as [k1 e] eqn:F. apply fault_tab in F. destruct F as [F1 F2]. rewrite F1, F2.
  destruct e; [discriminate|]. destruct (Z.ltb_spec z 0) as [L|L]; [discriminate|]. destruct (tab k (Z.to_nat z)) as [[f c]|] eqn:T; [|discriminate].
  destruct (lowest (tab k) i (limit k - i)) as [m|] eqn:Lo; [|discriminate]. intros H. assert (m = n) by congruence. subst m.
  assert (E : k' = with_tab k1 (upd (tab k) n (Some (f, true)))) by congruence. subst k'. apply lowest_some in Lo. destruct Lo as [Lo Fr].
  exists f, c. repeat split; auto; try lia.
Qed.
Lemma dupfd_err k z i k' r : dupfd k z i = (k', r) -> (forall n, r <> Ok n) -> tab k' = tab k /\ limit k' = limit k /\ r <> Panic.
Proof.
  unfold dupfd. destruct (fault k) as [k1 e] eqn:F. apply fault_tab in F. destruct F as [F1 F2].
  destruct e as [e|]; [intros H _; assert (k' = k1) by congruence; subst; repeat split; auto; intros ->; discriminate H|].
  destruct (Z.ltb z 0); [intros H _; assert (k' = k1) by congruence; subst; repeat split; auto; intros ->; discriminate H|].
  destruct (tab k1 (Z.to_nat z)) as [[f c]|]; [|intros H _; assert (k' = k1) by congruence; subst; repeat split; auto; intros ->; discriminate H].
  destruct (lowest _ _ _) as [m|]; [intros H N; destruct (N m); congruence|intros H _; assert (k' = k1) by congruence; subst; repeat split; auto; intros ->; discriminate H].
Qed.
Lemma null_ok k k' n : open_nullfd k = (k', Ok n) ->
  n < limit k /\ tab k n = None /\ tab k' = upd (tab k) n (Some (Null, true)) /\ limit k' = limit k.
Proof.
  unfold open_nullfd. destruct (fault k) as [k1 e] eqn:F. apply fault_tab in F. destruct F as [F1 F2]. rewrite F1, F2.
  destruct e; [discriminate|]. destruct (lowest (tab k) 0 (limit k)) as [m|] eqn:Lo; [|discriminate]. intros H. assert (m = n) by congruence. subst m.
  assert (E : k' = with_tab k1 (upd (tab k) n (Some (Null, true)))) by congruence. subst k'. apply lowest_some in Lo. destruct Lo as [Lo Fr]. repeat split; auto; lia.
Qed.
Lemma null_err k k' r : open_nullfd k = (k', r) -> (forall n, r <> Ok n) -> tab k' = tab k /\ limit k' = limit k /\ r <> Panic.
Proof.
  unfold open_nullfd. destruct (fault k) as [k1 e] eqn:F. apply fault_tab in F. destruct F as [F1 F2].
  destruct e as [e|]; [intros H _; assert (k' = k1) by congruence; subst; repeat split; auto; intros ->; discriminate H|].
  destruct (lowest _ _ _) as [m|]; [intros H N; destruct (N m); congruence|intros H _; assert (k' = k1) by congruence; subst; repeat split; auto; intros ->; discriminate H].
Qed.
Lemma dup3_ok k old z k' u : dup3 k old z = (k', Ok u) ->
  exists f c, (0 <= z)%Z /\ tab k old = Some (f, c) /\ old <> Z.to_nat z /\ tab k' = upd (tab k) (Z.to_nat z) (Some (f, true)) /\ limit k' = limit k.
Proof.
  unfold dup3. destruct (fault k) as [k1 e] eqn:F. apply fault_tab in F. destruct F as [F1 F2]. rewrite F1, F2.
  destruct e; [discriminate|]. destruct (Z.ltb_spec z 0) as [L|L]; [discriminate|]. cbn [orb].
  destruct (Nat.leb (limit k) (Z.to_nat z)); [discriminate|]. destruct (tab k old) as [[f c]|] eqn:T; [|discriminate].
  destruct (Nat.eqb_spec old (Z.to_nat z)) as [E|N]; [discriminate|]. intros H.
  assert (E : k' = with_tab k1 (upd (tab k) (Z.to_nat z) (Some (f, true)))) by congruence. subst k'. exists f, c. repeat split; auto.
Qed.
Lemma dup3_err k old z k' r : dup3 k old z = (k', r) -> (forall n, r <> Ok n) -> tab k' = tab k /\ limit k' = limit k /\ r <> Panic.
Proof.
  unfold dup3. destruct (fault k) as [k1 e] eqn:F. apply fault_tab in F. destruct F as [F1 F2].
  destruct e as [e|]; [intros H _; assert (k' = k1) by congruence; subst; repeat split; auto; intros ->; discriminate H|].
  destruct (_ || _); [intros H _; assert (k' = k1) by congruence; subst; repeat split; auto; intros ->; discriminate H|].
  destruct (tab k1 old) as [[f c]|]; [|intros H _; assert (k' = k1) by congruence; subst; repeat split; auto; intros ->; discriminate H].
  destruct (Nat.eqb _ _); [intros H _; assert (k' = k1) by congruence; subst; repeat split; auto; intros ->; discriminate H|intros H N; destruct (N tt); congruence].
Qed.
Lemma close_tab k n : tab (close k (Z.of_nat n)) = upd (tab k) n None.
Proof. unfold close. destruct (Z.ltb_spec (Z.of_nat n) 0); [lia|]. cbn [tab with_tab]. now rewrite Nat2Z.id. Qed.
Lemma close_limit k z : limit (close k z) = limit k.
Proof. unfold close. destruct (Z.ltb _ _); reflexivity. Qed.

(** * C81: claiming *)

(** What the descriptor number [z] refers to; negative numbers refer to nothing *)
Definition refers (k : kern) (z : Z) (e : file * bool) : Prop := (0 <= z)%Z /\ tab k (Z.to_nat z) = Some e.

Lemma mask_ok k z k' u : mask_fd k z = (k', Ok u) ->
  (0 <= z)%Z /\ limit k' = limit k /\ forall m, tab k' m = if Nat.eqb m (Z.to_nat z) then Some (Null, true) else tab k m.
Proof.
  unfold mask_fd. destruct (Z.eqb_spec z (-1)) as [E|E]; [discriminate|]. destruct (open_nullfd k) as [k1 r] eqn:O.
  destruct r as [n|e|]; [|discriminate|discriminate]. apply null_ok in O. destruct O as (L & Fr & T & Li). unfold clone_fd_to_cloexec.
  destruct (dup3 k1 n z) as [k2 r] eqn:D. intros H. assert (r = Ok u) by congruence. subst r. assert (Ek : k' = close k2 (Z.of_nat n)) by congruence. subst k'.
  apply dup3_ok in D. destruct D as (f & c & Z0 & Tn & N & T2 & L2). rewrite T, upd_same in Tn. assert (f = Null) by congruence. subst f.
  split; [exact Z0|]. split; [rewrite close_limit; congruence|]. intros m. rewrite close_tab, T2, T.
  destruct (Nat.eqb_spec m (Z.to_nat z)) as [->|M]; unfold upd.
  - rewrite (proj2 (Nat.eqb_neq (Z.to_nat z) n)) by congruence. now rewrite Nat.eqb_refl.
  - rewrite (proj2 (Nat.eqb_neq m (Z.to_nat z)) M). destruct (Nat.eqb_spec m n) as [->|]; [now rewrite Fr|reflexivity].
Qed.
Lemma mask_err k z k' e : mask_fd k z = (k', Err e) -> limit k' = limit k /\ forall m, tab k' m = tab k m.
Proof.
  unfold mask_fd. destruct (Z.eqb_spec z (-1)) as [E|E]; [discriminate|]. destruct (open_nullfd k) as [k1 r] eqn:O.
  destruct r as [n|e'|].
  - apply null_ok in O. destruct O as (L & Fr & T & Li). unfold clone_fd_to_cloexec. destruct (dup3 k1 n z) as [k2 r] eqn:D. intros H.
    assert (r = Err e) by congruence. subst r. assert (Ek : k' = close k2 (Z.of_nat n)) by congruence. subst k'.
    apply dup3_err in D; [|discriminate]. destruct D as (T2 & L2 & _). split; [rewrite close_limit; congruence|]. intros m. rewrite close_tab, T2, T.
    unfold upd. destruct (Nat.eqb_spec m n) as [->|]; [now rewrite Fr|reflexivity].
  - apply null_err in O; [|discriminate]. destruct O as (T & L & _). intros H. assert (k' = k1) by congruence. subst. split; [exact L|]. intros; now rewrite T.
  - discriminate.
Qed.
Lemma mask_panic k z : snd (mask_fd k z) = Panic <-> z = (-1)%Z.
Proof.
  unfold mask_fd. destruct (Z.eqb_spec z (-1)) as [E|E]; [split; auto|]. split; [|contradiction]. destruct (open_nullfd k) as [k1 r] eqn:O.
  destruct r as [n|e'|]; [|discriminate|apply null_err in O; [|discriminate]; destruct O as (_ & _ & O); contradiction].
  unfold clone_fd_to_cloexec. destruct (dup3 k1 n z) as [k2 r] eqn:D. cbn [snd]. intros ->. apply dup3_err in D; [|discriminate]. destruct D as (_ & _ & D). contradiction.
Qed.

(** C81: whoever claims a descriptor gets a new number of at least 3 for the same file that is not inherited by other programs; the number
    that was claimed then refers to /dev/null and no other number is concerned.  Partial: not all numbers that are no descriptors are
    refused with an error, see [C81_minus_one_refuted] and [C81_twice_refuted] *)
Theorem C81_claim_partial : forall k z k' n,
  claim_fd k z = (k', Ok n) ->
  3 <= n < limit k /\ tab k n = None /\
  exists f c, refers k z (f, c) /\ tab k' n = Some (f, true) /\ refers k' z (Null, true) /\
    forall m, m <> n -> Z.of_nat m <> z -> tab k' m = tab k m.
Proof.
  intros k z k' n. unfold claim_fd. destruct (Z.eqb_spec z (-1)) as [E|E]; [discriminate|]. unfold clone_fd_cloexec.
  destruct (dupfd k z 3) as [k1 r] eqn:D. destruct r as [new|e|]; [|discriminate|discriminate].
  apply dupfd_ok in D. destruct D as (f & c & Z0 & T & L & Fr & T1 & L1). destruct (mask_fd k1 z) as [k2 r] eqn:M. destruct r; [|discriminate|discriminate].
  intros H. assert (new = n) by congruence. assert (k2 = k') by congruence. subst. apply mask_ok in M. destruct M as (_ & L2 & T2).
  assert (Nn : n <> Z.to_nat z) by congruence. split; [lia|]. split; [exact Fr|]. exists f, c.
  split; [split; auto|]. split; [|split; [split; [assumption|]|]].
  - rewrite T2, (proj2 (Nat.eqb_neq _ _) Nn), T1. apply upd_same.
  - rewrite T2, Nat.eqb_refl. reflexivity.
  - intros m M1 M2. rewrite T2, (proj2 (Nat.eqb_neq m (Z.to_nat z))) by lia. rewrite T1. now apply upd_other.
Qed.
Print Assumptions C81_claim_partial.

(** C81: whatever fails meanwhile, a failed claim leaves all descriptors as they were *)
Theorem C81_claim_failed : forall k z k' e, claim_fd k z = (k', Err e) -> forall m, tab k' m = tab k m.
Proof.
  intros k z k' e. unfold claim_fd. destruct (Z.eqb_spec z (-1)) as [E|E]; [discriminate|]. unfold clone_fd_cloexec.
  destruct (dupfd k z 3) as [k1 r] eqn:D. destruct r as [new|e'|].
  - apply dupfd_ok in D. destruct D as (f & c & Z0 & T & L & Fr & T1 & L1). destruct (mask_fd k1 z) as [k2 r] eqn:M.
    destruct r as [|e'|]; [discriminate| |].
    + intros H m. assert (k' = close k2 (Z.of_nat new)) by congruence. subst k'. apply mask_err in M. destruct M as (_ & T2).
      rewrite close_tab. unfold upd. destruct (Nat.eqb_spec m new) as [->|N]; [now rewrite Fr|]. rewrite T2, T1. now apply upd_other.
    + discriminate.
  - apply dupfd_err in D; [|discriminate]. intros H m. assert (k' = k1) by congruence. subst. now rewrite (proj1 D).
  - discriminate.
Qed.
Print Assumptions C81_claim_failed.

(** C81: claiming works unless a system call fails: for an open descriptor, if there is room for two more, one of them with a number of
    at least 3 *)
Theorem C81_claim_works : forall k fd e a b,
  refers k (Z.of_nat fd) e -> fd < limit k -> faults k = [] ->
  a <> b -> a < limit k -> b < limit k -> 3 <= a -> tab k a = None -> tab k b = None ->
  exists k' n, claim_fd k (Z.of_nat fd) = (k', Ok n).
Proof.
  intros k fd [f c] a b [_ R] Lf Fa N La Lb A3 Ta Tb. rewrite Nat2Z.id in R. unfold claim_fd, clone_fd_cloexec, dupfd, fault. rewrite Fa.
  destruct (Z.eqb_spec (Z.of_nat fd) (-1)) as [?|_]; [lia|]. destruct (Z.ltb_spec (Z.of_nat fd) 0) as [?|_]; [lia|]. rewrite Nat2Z.id, R.
  destruct (lowest (tab k) 3 (limit k - 3)) as [n|] eqn:Lo; [|exfalso; apply (lowest_none _ _ _ a Lo); [lia|exact Ta]].
  apply lowest_some in Lo. destruct Lo as [Ln Tn]. unfold mask_fd, open_nullfd, fault. cbn [with_tab tab limit faults]. rewrite Fa.
  destruct (Z.eqb_spec (Z.of_nat fd) (-1)) as [?|_]; [lia|]. cbn [with_tab tab limit faults].
  destruct (lowest (upd (tab k) n (Some (f, true))) 0 (limit k)) as [n'|] eqn:Lo'.
  2:{ exfalso. destruct (Nat.eq_dec a n) as [->|Na].
      - apply (lowest_none _ _ _ b Lo'); [lia|]. rewrite upd_other; auto.
      - apply (lowest_none _ _ _ a Lo'); [lia|]. rewrite upd_other; auto. }
  apply lowest_some in Lo'. destruct Lo' as [Ln' Tn']. unfold clone_fd_to_cloexec, dup3, fault. cbn [with_tab tab limit faults]. rewrite Fa.
  destruct (Z.ltb_spec (Z.of_nat fd) 0) as [?|_]; [lia|]. rewrite Nat2Z.id. cbn [with_tab tab limit faults]. destruct (Nat.leb_spec (limit k) fd); [lia|]. cbn [orb]. rewrite upd_same.
  destruct (Nat.eqb_spec n' fd) as [->|]; [|eauto].
  exfalso. unfold upd in Tn'. destruct (Nat.eqb fd n); congruence.
Qed.
Print Assumptions C81_claim_works.

(** C81: claiming in place keeps the number and the file, which is not inherited by other programs any more, and changes no other number *)
Theorem C81_inplace : forall k z k' n,
  claim_fd_inplace k z = (k', Ok n) ->
  z = Z.of_nat n /\ exists f c, tab k n = Some (f, c) /\ tab k' n = Some (f, true) /\ forall m, m <> n -> tab k' m = tab k m.
Proof.
  intros k z k' n. unfold claim_fd_inplace. destruct (Z.eqb_spec z (-1)) as [E|E]; [discriminate|]. unfold clone_fd_cloexec.
  destruct (dupfd k z 3) as [k1 r] eqn:D. destruct r as [tmp|e|]; [|discriminate|discriminate].
  apply dupfd_ok in D. destruct D as (f & c & Z0 & T & L & Fr & T1 & L1). unfold clone_fd_to_cloexec. destruct (dup3 k1 tmp z) as [k2 r] eqn:M. destruct r; [|discriminate|discriminate].
  intros H. assert (Ez : Z.to_nat z = n) by congruence. assert (k' = close k2 (Z.of_nat tmp)) by congruence. subst k'. split; [lia|].
  apply dup3_ok in M. destruct M as (f' & c' & _ & Tt & Nt & T2 & L2). rewrite T1, upd_same in Tt. assert (f' = f) by congruence. subst f'. rewrite Ez in *.
  exists f, c. split; [exact T|]. rewrite close_tab, T2, T1. split.
  - rewrite upd_other by congruence. apply upd_same.
  - intros m M. unfold upd. rewrite (proj2 (Nat.eqb_neq _ _) M). destruct (Nat.eqb_spec m tmp) as [->|]; [now rewrite Fr|reflexivity].
Qed.
Print Assumptions C81_inplace.

(** C81: if claiming in place fails, the descriptor is closed and no other number is concerned *)
Theorem C81_inplace_failed : forall k z k' e,
  claim_fd_inplace k z = (k', Err e) -> forall m, tab k' m = if Z.eqb (Z.of_nat m) z then None else tab k m.
Proof.
  intros k z k' e. unfold claim_fd_inplace. destruct (Z.eqb_spec z (-1)) as [E|E]; [discriminate|]. unfold clone_fd_cloexec.
  assert (C : forall k1 m, (forall m, Z.of_nat m <> z -> tab k1 m = tab k m) -> tab (close k1 z) m = if Z.eqb (Z.of_nat m) z then None else tab k m).
  { intros k1 m H. unfold close. destruct (Z.ltb_spec z 0) as [L|L].
    - rewrite H by lia. destruct (Z.eqb_spec (Z.of_nat m) z); [lia|reflexivity].
    - cbn [with_tab tab]. unfold upd. destruct (Z.eqb_spec (Z.of_nat m) z) as [X|X], (Nat.eqb_spec m (Z.to_nat z)) as [Y|Y]; try lia; auto. }
  destruct (dupfd k z 3) as [k1 r] eqn:D. destruct r as [tmp|e'|].
  - apply dupfd_ok in D. destruct D as (f & c & Z0 & T & L & Fr & T1 & L1). unfold clone_fd_to_cloexec. destruct (dup3 k1 tmp z) as [k2 r] eqn:M.
    destruct r as [|e'|]; [discriminate| |discriminate]. intros H m. assert (k' = close (close k2 (Z.of_nat tmp)) z) by congruence. subst k'.
    apply dup3_err in M; [|discriminate]. destruct M as (T2 & _). apply C. intros m' N. rewrite close_tab, T2, T1. unfold upd.
    destruct (Nat.eqb_spec m' tmp) as [->|]; [now rewrite Fr|reflexivity].
  - apply dupfd_err in D; [|discriminate]. intros H m. assert (k' = close k1 z) by congruence. subst. apply C. intros; now rewrite (proj1 D).
  - discriminate.
Qed.
Print Assumptions C81_inplace_failed.

(** C81 fails for one number: claiming -1, which is no descriptor, panics and is not refused *)
Theorem C81_minus_one_refuted : forall k z,
  (snd (claim_fd k z) = Panic <-> z = (-1)%Z) /\ (snd (claim_fd_inplace k z) = Panic <-> z = (-1)%Z).
Proof.
  intros k z. unfold claim_fd, claim_fd_inplace, clone_fd_cloexec. destruct (Z.eqb_spec z (-1)) as [E|E]; [repeat split; auto|].
  destruct (dupfd k z 3) as [k1 r] eqn:D. split; (split; [|contradiction]).
  - destruct r as [new|e|]; [|discriminate|apply dupfd_err in D; [|discriminate]; destruct D as (_ & _ & D); contradiction].
    pose proof (mask_panic k1 z) as Mp. destruct (mask_fd k1 z) as [k2 r]. destruct r; [discriminate|discriminate|]. intros _. apply Mp. reflexivity.
  - destruct r as [new|e|]; [|discriminate|apply dupfd_err in D; [|discriminate]; destruct D as (_ & _ & D); contradiction].
    unfold clone_fd_to_cloexec. destruct (dup3 k1 new z) as [k2 r] eqn:M. destruct r; [discriminate|discriminate|].
    apply dup3_err in M; [|discriminate]. destruct M as (_ & _ & M). contradiction.
Qed.
Print Assumptions C81_minus_one_refuted.

(** C81 fails for a descriptor that was claimed already: claiming it again is not refused but gives /dev/null *)
Theorem C81_twice_refuted : forall k z k' n k'' n',
  claim_fd k z = (k', Ok n) -> claim_fd k' z = (k'', Ok n') -> tab k'' n' = Some (Null, true).
Proof.
  intros k z k' n k'' n' H H'. apply C81_claim_partial in H, H'. destruct H as (_ & _ & f & c & _ & _ & [_ R] & _).
  destruct H' as (_ & _ & f' & c' & [_ R'] & T & _). congruence.
Qed.
Print Assumptions C81_twice_refuted.

(** * C82: the sources of API connections *)

Lemma nodup_disjoint {A} (a b : list A) : NoDup (a ++ b) -> forall z, In z a -> ~ In z b.
Proof.
  induction a as [|x a IH]; intros N z I J; [destruct I|]. cbn [List.app] in N. inversion N as [|? ? Nx N']; subst.
  destruct I as [->|I]; [apply Nx, in_or_app; auto|exact (IH N' z I J)].
Qed.

Section Sources.
Variable sock : bytes -> file.
(** The descriptor a source names *)
Definition fd_of (x : source) : list Z := match x with SPath _ => [] | SListen z | SStream z => [z] end.
(** The file behind a source, when the server starts *)
Definition gives (k : kern) (x : source) (f : file) : Prop :=
  match x with SPath p => f = sock p | SListen z | SStream z => exists c, refers k z (f, c) end.

Lemma get_source_ok x k k' n : get_source sock x k = (k', Ok n) ->
  tab k n = None /\ exists f, gives k x f /\ tab k' n = Some (f, true) /\ (forall z, In z (fd_of x) -> refers k' z (Null, true)) /\
    forall m, m <> n -> ~ In (Z.of_nat m) (fd_of x) -> tab k' m = tab k m.
Proof.
  destruct x as [p|z|z]; cbn [get_source fd_of gives].
  - unfold bind. destruct (fault k) as [k1 e] eqn:F. apply fault_tab in F. destruct F as [F1 F2]. destruct e; [discriminate|]. rewrite F1, F2.
    destruct (lowest (tab k) 0 (limit k)) as [m|] eqn:Lo; [|discriminate]. intros H. assert (m = n) by congruence. subst m.
    assert (k' = with_tab k1 (upd (tab k) n (Some (sock p, true)))) by congruence. subst k'. apply lowest_some in Lo. split; [exact (proj2 Lo)|].
    exists (sock p). split; [reflexivity|]. cbn [with_tab tab]. split; [apply upd_same|]. split; [intros z []|]. intros m N _. now apply upd_other.
  - unfold listener_claim. destruct (claim_fd k z) as [k1 r] eqn:C. destruct r as [n'|e|]; [|discriminate|discriminate]. unfold set_nonblocking.
    destruct (fault k1) as [k2 e] eqn:F. apply fault_tab in F. destruct F as [F1 _]. destruct e; [discriminate|]. intros H. assert (n' = n) by congruence. assert (k2 = k') by congruence. subst.
    apply C81_claim_partial in C. destruct C as (_ & Fr & f & c & R & T & [Rz Rn] & O). split; [exact Fr|]. exists f. split; [eauto|]. rewrite F1. split; [exact T|].
    split; [intros z' [<-|[]]; split; [exact Rz|now rewrite F1]|]. intros m N N'. apply O; [exact N|]. intros E. apply N'. left. auto.
  - unfold stream_claim. destruct (claim_fd k z) as [k1 r] eqn:C. destruct r as [n'|e|]; [|discriminate|discriminate]. unfold stream_from, set_nonblocking.
    destruct (demand_unix_stream_socket k1 n'); [|discriminate].
    destruct (fault k1) as [k2 e] eqn:F. apply fault_tab in F. destruct F as [F1 _]. destruct e; [discriminate|]. intros H. assert (n' = n) by congruence. assert (k2 = k') by congruence. subst.
    apply C81_claim_partial in C. destruct C as (_ & Fr & f & c & R & T & [Rz Rn] & O). split; [exact Fr|]. exists f. split; [eauto|]. rewrite F1. split; [exact T|].
    split; [intros z' [<-|[]]; split; [exact Rz|now rewrite F1]|]. intros m N N'. apply O; [exact N|]. intros E. apply N'. left. auto.
Qed.
Lemma add_source_ok x k k' n : add_source sock x k = (k', Ok n) ->
  tab k n = None /\ exists f, gives k x f /\ tab k' n = Some (f, true) /\ (forall z, In z (fd_of x) -> refers k' z (Null, true)) /\
    forall m, m <> n -> ~ In (Z.of_nat m) (fd_of x) -> tab k' m = tab k m.
Proof.
  unfold add_source. destruct (get_source sock x k) as [k1 r] eqn:G. destruct r as [n'|e|]; [|discriminate|discriminate]. unfold register.
  destruct (fault k1) as [k2 e] eqn:F. apply fault_tab in F. destruct F as [F1 _]. intros H.
  assert (X : n' = n /\ tab k' = tab k1).
  { destruct e; [discriminate H|]. destruct (tab k2 n') as [[f c]|]; [|discriminate H]. destruct (kind_of f); try discriminate H; split; congruence. }
  destruct X as [-> X]. apply get_source_ok in G. destruct G as (Fr & f & Gf & T & Z & O). split; [exact Fr|]. exists f. split; [exact Gf|]. rewrite X.
  split; [exact T|]. split; [|exact O]. intros z I. destruct (Z z I) as [A B]. split; [exact A|now rewrite X].
Qed.

Record inv (k0 : kern) (done : list (source * nat)) (k : kern) : Prop := {
  i_new : forall x n, In (x, n) done -> tab k0 n = None /\ exists f, gives k0 x f /\ tab k n = Some (f, true);
  i_nodup : NoDup (map snd done);
  i_null : forall z, In z (flat_map (fun d => fd_of (fst d)) done) -> refers k z (Null, true);
  i_rest : forall m, ~ In m (map snd done) -> ~ In (Z.of_nat m) (flat_map (fun d => fd_of (fst d)) done) -> tab k m = tab k0 m }.

Lemma inv_step k0 done k x k' n : inv k0 done k ->
  (forall z, In z (fd_of x) -> exists e, refers k0 z e) ->
  (forall z, In z (fd_of x) -> ~ In z (flat_map (fun d => fd_of (fst d)) done)) ->
  (forall z, In z (flat_map (fun d => fd_of (fst d)) done) -> exists e, refers k0 z e) ->
  add_source sock x k = (k', Ok n) -> inv k0 (done ++ [(x, n)]) k'.
Proof.
  intros I Op Ne Od A. apply add_source_ok in A. destruct A as (Fr & f & G & T & Z & O). destruct I as [I1 I2 I3 I4].
  assert (N1 : ~ In n (map snd done)).
  { intros H. apply in_map_iff in H. destruct H as ((y & m) & E & H). cbn in E. subst m. destruct (I1 _ _ H) as (_ & f' & _ & Tf). congruence. }
  assert (N2 : ~ In (Z.of_nat n) (flat_map (fun d => fd_of (fst d)) done)).
  { intros H. destruct (I3 _ H) as [_ R]. rewrite Nat2Z.id in R. congruence. }
  assert (F0 : tab k0 n = None) by (rewrite <- I4 by assumption; exact Fr).
  assert (K : forall z, In z (fd_of x) -> (0 <= z)%Z /\ tab k (Z.to_nat z) = tab k0 (Z.to_nat z)).
  { intros z H. destruct (Op z H) as (e & Zp & R). split; [exact Zp|]. apply I4.
    - intros J. apply in_map_iff in J. destruct J as ((y & m) & E & J). cbn in E. subst m. destruct (I1 _ _ J) as (T0 & _). congruence.
    - rewrite Z2Nat.id by exact Zp. apply Ne, H. }
  assert (Same : forall m, tab k0 m <> None -> ~ In (Z.of_nat m) (fd_of x) -> tab k' m = tab k m).
  { intros m M1 M2. apply O; [congruence|exact M2]. }
  constructor.
  - intros y m H. apply in_app_or in H. destruct H as [H|[H|[]]].
    + destruct (I1 _ _ H) as (T0 & f' & G' & T'). split; [exact T0|]. exists f'. split; [exact G'|]. rewrite O; [exact T'| |].
      * intros ->. congruence.
      * intros J. destruct (Op _ J) as (e & _ & R). rewrite Nat2Z.id in R. congruence.
    + assert (y = x) by congruence. assert (m = n) by congruence. subst y m. split; [exact F0|]. exists f. split; [|exact T].
      destruct x as [p|z|z]; cbn [gives] in G |- *; [exact G| |]; destruct G as (c & Zp & R); exists c; (split; [exact Zp|]);
        (destruct (K z) as [_ Kz]; [left; reflexivity|]); congruence.
  - rewrite map_app. cbn [map snd]. apply NoDup_Add with (a := n) (l := map snd done).
    + rewrite <- (app_nil_r (map snd done)) at 1. apply Add_app.
    + split; assumption.
  - intros z H. rewrite flat_map_app in H. apply in_app_or in H. cbn [flat_map fst] in H. rewrite app_nil_r in H. destruct H as [H|H]; [|exact (Z z H)].
    destruct (I3 z H) as [Zp R]. split; [exact Zp|]. rewrite O; [exact R| |].
    + intros E. apply N2. rewrite <- E, Z2Nat.id by exact Zp. exact H.
    + rewrite Z2Nat.id by exact Zp. intros J. exact (Ne _ J H).
  - intros m M1 M2. rewrite map_app in M1. rewrite flat_map_app in M2. cbn [map snd flat_map fst] in M1, M2. rewrite app_nil_r in M2.
    rewrite O.
    + apply I4; intros H; [apply M1|apply M2]; apply in_or_app; auto.
    + intros ->. apply M1, in_or_app. right. left. reflexivity.
    + intros H. apply M2, in_or_app. auto.
Qed.

Lemma add_sources_ok k0 : forall l done k s k' s', inv k0 done k ->
  (forall z, In z (flat_map (fun d => fd_of (fst d)) done ++ flat_map fd_of l) -> exists e, refers k0 z e) ->
  NoDup (flat_map (fun d => fd_of (fst d)) done ++ flat_map fd_of l) ->
  add_sources sock l s k = (k', (s', Ok tt)) ->
  exists done', map fst done' = l /\ inv k0 (done ++ done') k' /\ s' = fold_left (fun s d => push s (fst d) (snd d)) done' s.
Proof.
  induction l as [|x l IH]; intros done k s k' s' I Op Nd H; cbn [add_sources] in H.
  - exists []. rewrite app_nil_r. assert (k = k') by congruence. assert (s = s') by congruence. subst. auto.
  - destruct (add_source sock x k) as [k1 r] eqn:A. destruct r as [n|e|]; [|discriminate H|discriminate H]. cbn [flat_map] in Op, Nd.
    assert (I' : inv k0 (done ++ [(x, n)]) k1).
    { eapply inv_step; [exact I| | | |exact A].
      - intros z J. apply Op. apply in_or_app. right. apply in_or_app. auto.
      - intros z J J'. exact (nodup_disjoint _ _ Nd z J' (in_or_app _ _ _ (or_introl J))).
      - intros z J. apply Op. apply in_or_app. auto. }
    destruct (IH (done ++ [(x, n)]) k1 (push s x n) k' s' I') as (done' & E & I2 & Es).
    + rewrite flat_map_app. cbn [flat_map fst]. rewrite app_nil_r, <- app_assoc. exact Op.
    + rewrite flat_map_app. cbn [flat_map fst]. rewrite app_nil_r, <- app_assoc. exact Nd.
    + exact H.
    + exists ((x, n) :: done'). cbn [map fst]. split; [congruence|]. rewrite <- app_assoc in I2. split; [exact I2|]. exact Es.
Qed.
Lemma push_listeners : forall d s, (forall y n, In (y, n) d -> is_conn y = false) ->
  fold_left (fun s d => push s (fst d) (snd d)) d s = {| a_listeners := a_listeners s ++ map snd d; a_connections := a_connections s |}.
Proof.
  induction d as [|[y n] d IH]; intros s H; cbn [fold_left map fst snd]; [rewrite app_nil_r; now destruct s|].
  rewrite IH by (intros y' n' J; apply (H y' n'); right; exact J). unfold push. rewrite (H y n (or_introl eq_refl)). cbn [a_listeners a_connections].
  rewrite <- app_assoc. reflexivity.
Qed.
Lemma push_connections : forall d s, (forall y n, In (y, n) d -> is_conn y = true) ->
  fold_left (fun s d => push s (fst d) (snd d)) d s = {| a_listeners := a_listeners s; a_connections := a_connections s ++ map snd d |}.
Proof.
  induction d as [|[y n] d IH]; intros s H; cbn [fold_left map fst snd]; [rewrite app_nil_r; now destruct s|].
  rewrite IH by (intros y' n' J; apply (H y' n'); right; exact J). unfold push. rewrite (H y n (or_introl eq_refl)). cbn [a_listeners a_connections].
  rewrite <- app_assoc. reflexivity.
Qed.
End Sources.

Lemma map_eq_app_inv {A B} (f : A -> B) l x y : map f l = x ++ y -> exists l1 l2, l = l1 ++ l2 /\ map f l1 = x /\ map f l2 = y.
Proof.
  revert l. induction x as [|a x IH]; intros l H; [exists [], l; auto|]. destruct l as [|b l]; [discriminate H|]. cbn in H.
  assert (E : map f l = x ++ y) by congruence. destruct (IH l E) as (l1 & l2 & -> & E1 & E2). exists (b :: l1), l2. cbn. split; [reflexivity|]. split; [congruence|assumption].
Qed.
Lemma forall2_of {A} (mk : A -> source) (R : A -> nat -> Prop) l d : map fst d = map mk l -> (forall a n, In (mk a, n) d -> R a n) -> Forall2 R l (map snd d).
Proof.
  revert d. induction l as [|a l IH]; intros [|[x n] d] E H; try discriminate E; [constructor|]. cbn [map fst] in E. cbn [map snd]. constructor.
  - apply H. left. congruence.
  - apply IH; [congruence|]. intros a' n' J. apply H. right. exact J.
Qed.

(** The files that the descriptors [l] refer to in the beginning are those that [l'] refer to in the end, where they are not inherited by
    other programs and had been free *)
Definition taken (k k' : kern) : list Z -> list nat -> Prop :=
  Forall2 (fun z n => exists f c, refers k z (f, c) /\ tab k n = None /\ tab k' n = Some (f, true)).

(** C82: if the descriptors that are named are open and different, a server that starts listens at the paths and the descriptors of the
    configuration and then of the command line, in this order, and has the connections; what was named refers to /dev/null, and no other
    descriptor is concerned *)
Theorem C82_sources_partial : forall sock cfg cli k k' s,
  let paths := listen_path cfg ++ listen_path cli in
  let lfds := listen_fd cfg ++ listen_fd cli in
  let sfds := stream_fd cfg ++ stream_fd cli in
  (forall z, In z (lfds ++ sfds) -> exists e, refers k z e) -> NoDup (lfds ++ sfds) ->
  apply_to_app_server sock (apply_to_api_config cli cfg) k = (k', (s, Ok tt)) ->
  exists l1 l2, a_listeners s = l1 ++ l2 /\
    Forall2 (fun p n => tab k n = None /\ tab k' n = Some (sock p, true)) paths l1 /\
    taken k k' lfds l2 /\ taken k k' sfds (a_connections s) /\
    NoDup (a_listeners s ++ a_connections s) /\
    (forall z, In z (lfds ++ sfds) -> refers k' z (Null, true)) /\
    (forall m, ~ In m (a_listeners s ++ a_connections s) -> ~ In (Z.of_nat m) (lfds ++ sfds) -> tab k' m = tab k m).
Proof.
  intros sock cfg cli k k' s paths lfds sfds Op Nd H. unfold apply_to_app_server, sources, apply_to_api_config in H.
  cbn [listen_path listen_fd stream_fd] in H. fold paths lfds sfds in H.
  assert (Fm : flat_map fd_of (map SPath paths ++ map SListen lfds ++ map SStream sfds) = lfds ++ sfds).
  { rewrite !flat_map_app. assert (X : flat_map fd_of (map SPath paths) = []) by (clear; induction paths as [|? ? IHp]; [reflexivity|exact IHp]).
    assert (Y : flat_map fd_of (map SListen lfds) = lfds) by (clear; induction lfds as [|? ? IHp]; [reflexivity|cbn; now rewrite IHp]).
    assert (W : flat_map fd_of (map SStream sfds) = sfds) by (clear; induction sfds as [|? ? IHp]; [reflexivity|cbn; now rewrite IHp]).
    now rewrite X, Y, W. }
  assert (I0 : inv sock k [] k) by (constructor; [intros ? ? []|constructor|intros ? []|reflexivity]).
  assert (Op' := Op). assert (Nd' := Nd). rewrite <- Fm in Op', Nd'.
  destruct (add_sources_ok sock k _ [] k _ k' s I0 Op' Nd' H) as (d & E & I & Es).
  cbn [List.app] in I. apply map_eq_app_inv in E. destruct E as (d1 & d' & Ed & E1 & E'). apply map_eq_app_inv in E'. destruct E' as (d2 & d3 & Ed' & E2 & E3).
  subst d d'. destruct I as [J1 J2 J3 J4].
  assert (Fd : flat_map (fun d => fd_of (fst d)) (d1 ++ d2 ++ d3) = lfds ++ sfds).
  { rewrite <- Fm, <- E1, <- E2, <- E3, <- !map_app. generalize (d1 ++ d2 ++ d3). clear. intros l. induction l as [|? ? IH]; [reflexivity|]. cbn. now rewrite IH. }
  rewrite !fold_left_app in Es.
  assert (K1 : forall y n, In (y, n) d1 -> is_conn y = false) by (intros y n J; apply (in_map fst) in J; rewrite E1 in J; apply in_map_iff in J; destruct J as (? & Ey & _); cbn [fst] in Ey; subst y; reflexivity).
  assert (K2 : forall y n, In (y, n) d2 -> is_conn y = false) by (intros y n J; apply (in_map fst) in J; rewrite E2 in J; apply in_map_iff in J; destruct J as (? & Ey & _); cbn [fst] in Ey; subst y; reflexivity).
  assert (K3 : forall y n, In (y, n) d3 -> is_conn y = true) by (intros y n J; apply (in_map fst) in J; rewrite E3 in J; apply in_map_iff in J; destruct J as (? & Ey & _); cbn [fst] in Ey; subst y; reflexivity).
  rewrite (push_listeners d1), (push_listeners d2), (push_connections d3) in Es by assumption. subst s. cbn [a_listeners a_connections List.app].
  rewrite Fd in J3, J4. rewrite !map_app in J2, J4. exists (map snd d1), (map snd d2). split; [reflexivity|].
  split; [|split; [|split; [|split; [|split]]]].
  - apply forall2_of with (mk := SPath); [exact E1|]. intros p n J. destruct (J1 (SPath p) n) as (T0 & f & G & T); [apply in_or_app; auto|].
    cbn [gives] in G. subst f. auto.
  - apply forall2_of with (mk := SListen); [exact E2|]. intros z n J. destruct (J1 (SListen z) n) as (T0 & f & (c & G) & T); [apply in_or_app; right; apply in_or_app; auto|]. eauto.
  - apply forall2_of with (mk := SStream); [exact E3|]. intros z n J. destruct (J1 (SStream z) n) as (T0 & f & (c & G) & T); [apply in_or_app; right; apply in_or_app; auto|]. eauto.
  - rewrite <- app_assoc. exact J2.
  - exact J3.
  - intros m M1 M2. apply J4; [|exact M2]. rewrite app_assoc. exact M1.
Qed.
Print Assumptions C82_sources_partial.

(** A process with standard input, output and error, and descriptors of the given files from 3 on *)
Definition process (given : list file) : kern :=
  {| tab := fun n => if Nat.ltb n 3 then Some (Given n KPollable, false)
                     else match nth_error given (n - 3) with Some f => Some (f, false) | None => None end;
     limit := 20; faults := [] |}.

(** C82 fails for descriptors that nobody passed to the server: if the number is that of a file the server opened itself, like its UDP
    socket, it is taken for the API, the server goes on without complaint, and its own descriptor refers to /dev/null *)
Theorem C82_own_descriptor_refuted : exists k k' s udp,
  (forall m c, tab k m <> Some (Given 100 KUnixListener, c)) /\ refers k 3 (udp, false) /\ kind_of udp = KPollable /\
  apply_to_app_server (fun _ => Null) {| listen_path := []; listen_fd := [3%Z]; stream_fd := [] |} k = (k', (s, Ok tt)) /\
  a_listeners s = [4] /\ tab k' 4 = Some (udp, true) /\ refers k' 3 (Null, true).
Proof.
  exists (process [Given 7 KPollable]). eexists _, _, (Given 7 KPollable).
  split. { intros m c H. cbn [process tab] in H. destruct (Nat.ltb m 3); [discriminate H|]. destruct (m - 3) as [|[|]]; discriminate H. }
  split. { split; [lia|reflexivity]. } split; [reflexivity|]. split; [vm_compute; reflexivity|]. split; [reflexivity|]. split; [reflexivity|]. split; [lia|reflexivity].
Qed.
Print Assumptions C82_own_descriptor_refuted.

(** C82 fails for the number of a listener the server has just created at a path: the listener is taken for a second one, and the first
    does not work any more *)
Theorem C82_own_listener_refuted : exists k k' s sock,
  apply_to_app_server sock {| listen_path := [[x2f]]; listen_fd := [3%Z]; stream_fd := [] |} k = (k', (s, Ok tt)) /\
  a_listeners s = [3; 4] /\ tab k' 3 = Some (Null, true) /\ tab k' 4 = Some (sock [x2f], true).
Proof. exists (process []). eexists _, _, (fun _ => Given 9 KUnixListener). split; [vm_compute; reflexivity|]. repeat split. Qed.
Print Assumptions C82_own_listener_refuted.

(** C82: a configuration without a keypair is accepted if there is some source of API connections (C69); this is so exactly if one of the lists names one *)
Theorem C82_has_sources : forall c, has_api_sources c = true <-> (exists p, In p (listen_path c)) \/ (exists z, In z (listen_fd c)) \/ (exists z, In z (stream_fd c)).
Proof.
  intros c. unfold has_api_sources, count_api_sources. rewrite Nat.ltb_lt. destruct c as [[|p lp] [|z lf] [|y sf]]; cbn; split; intros H; try lia;
    first [exfalso; decompose [ex or] H; contradiction | left; eexists; left; reflexivity | right; left; eexists; left; reflexivity | right; right; eexists; left; reflexivity].
Qed.
Print Assumptions C82_has_sources.

(** C82 fails for -1, with which the server panics *)
Theorem C82_minus_one_refuted : forall sock k fds,
  snd (snd (apply_to_app_server sock {| listen_path := []; listen_fd := (-1)%Z :: fds; stream_fd := [] |} k)) = Panic /\
  snd (snd (apply_to_app_server sock {| listen_path := []; listen_fd := []; stream_fd := (-1)%Z :: fds |} k)) = Panic.
Proof. intros. split; reflexivity. Qed.
Print Assumptions C82_minus_one_refuted.

(** C82: a stream descriptor that is no Unix stream socket is refused; but it is gone afterwards *)
Theorem C82_not_a_stream_refused : forall sock k z f c k' s r,
  refers k z (f, c) -> kind_of f <> KUnixStream -> kind_of f <> KUnixListener ->
  apply_to_app_server sock {| listen_path := []; listen_fd := []; stream_fd := [z] |} k = (k', (s, r)) ->
  (exists e, r = Err e) /\ a_connections s = [].
Proof.
  intros sock k z f c k' s r [Zp R] N1 N2 H. cbv [apply_to_app_server sources map List.app listen_path listen_fd stream_fd add_sources] in H.
  unfold add_source, get_source, stream_claim in H. destruct (claim_fd k z) as [k1 q] eqn:C. destruct q as [n|e|].
  - apply C81_claim_partial in C. destruct C as (_ & _ & f' & c' & [_ R'] & T & _). unfold stream_from, demand_unix_stream_socket in H. rewrite T in H.
    assert (f' = f) by congruence. subst f'. destruct (kind_of f); try contradiction.
    + assert (r = Err ENOTSOCK) by congruence. subst r. split; [eauto|]. assert (s = {| a_listeners := []; a_connections := [] |}) by congruence. subst s. reflexivity.
    + assert (r = Err ENOTSOCK) by congruence. subst r. split; [eauto|]. assert (s = {| a_listeners := []; a_connections := [] |}) by congruence. subst s. reflexivity.
  - assert (r = Err e) by congruence. subst r. split; [eauto|]. assert (s = {| a_listeners := []; a_connections := [] |}) by congruence. subst s. reflexivity.
  - destruct (C81_minus_one_refuted k z) as [M _]. rewrite C in M. cbn [snd] in M. destruct M as [M _]. specialize (M eq_refl). subst z. lia.
Qed.
Print Assumptions C82_not_a_stream_refused.

(** * C83: sending descriptors *)

(** A history of calls of [write]: the data offered and how the socket behaves; what remains in the queue, what goes over the socket, and
    the results *)
Fixpoint writes {F} (q : list F) (h : list (bytes * (nat -> res errno nat))) : list F * list (bytes * list F) * list (res errno nat) :=
  match h with
  | [] => (q, [], [])
  | (buf, send) :: h => let '(q, w, r) := write_fds q buf send in let '(q, w', rs) := writes q h in (q, w ++ w', r :: rs)
  end.
(** The socket takes at least one byte and no more than it is offered *)
Definition sane (send : nat -> res errno nat) : Prop := forall n m, 1 <= n -> send n = Ok m -> 1 <= m <= n.
(** The bytes the caller is told to have written *)
Definition accepted (h : list (bytes * (nat -> res errno nat))) (rs : list (res errno nat)) : bytes :=
  concat (map (fun x => match snd x with Ok n => firstn n (fst (fst x)) | _ => [] end) (combine h rs)).

(** C83: whatever is written and however the socket behaves, the descriptors go over the socket in their order, each once, and the others
    remain in the queue; the bytes that go over the socket are those that the results say; every message has at least one byte and not
    more descriptors than the kernel takes *)
Theorem C83_in_order : forall F h (q : list F) q' w rs,
  (forall x, In x h -> sane (snd x)) -> writes q h = (q', w, rs) ->
  concat (map snd w) ++ q' = q /\ concat (map fst w) = accepted h rs /\
  forall b fds, In (b, fds) w -> 1 <= length b /\ length fds <= 253.
Proof.
  intros F. induction h as [|[buf send] h IH]; intros q q' w rs Sa H; cbn [writes] in H.
  - assert (q = q') by congruence. assert (w = []) by congruence. subst. (split; [|split]); [reflexivity|reflexivity|intros ? ? []].
  - destruct (write_fds q buf send) as [[q1 w1] r1] eqn:W. destruct (writes q1 h) as [[q2 w2] rs2] eqn:E.
    assert (q2 = q') by congruence. assert (w = w1 ++ w2) by congruence. assert (rs = r1 :: rs2) by congruence. subst.
    destruct (IH q1 q' w2 rs2) as (I1 & I2 & I3); [intros x J; apply Sa; right; exact J|exact E|].
    assert (X : concat (map snd w1) ++ q1 = q /\ concat (map fst w1) = match r1 with Ok n => firstn n buf | _ => [] end /\
                forall b fds, In (b, fds) w1 -> 1 <= length b /\ length fds <= 253).
    { unfold write_fds in W. cbv zeta in W. destruct buf as [|b0 buf].
      - assert (q1 = q) by congruence. assert (w1 = []) by congruence. assert (r1 = Ok 0) by congruence. subst. (split; [|split]); [reflexivity|reflexivity|intros ? ? []].
      - set (bb := b0 :: buf) in *. match type of W with context [send (length ?x)] => set (bf := x) in W end.
        assert (Bf : forall n, n <= length bf -> firstn n bf = firstn n bb).
        { intros n L. unfold bf in *. destruct (Nat.leb (length q) SCM_MAX_FD); [reflexivity|]. rewrite firstn_length in L. rewrite firstn_firstn, Nat.min_l by lia. reflexivity. }
        destruct (send (length bf)) as [n|e|] eqn:Sd.
        + assert (Lf : 1 <= length bf) by (unfold bf, bb; destruct (Nat.leb (length q) SCM_MAX_FD); cbn; lia). pose proof (Sa (bb, send) (or_introl eq_refl) _ _ Lf Sd) as L. assert (Eq1 : q1 = skipn (Nat.min SCM_MAX_FD (length q)) q) by congruence.
          assert (w1 = [(firstn n bf, firstn (Nat.min SCM_MAX_FD (length q)) q)]) by congruence. assert (r1 = Ok n) by congruence. subst w1 r1. rewrite Eq1.
          cbn [map snd fst concat]. rewrite !app_nil_r, firstn_skipn. split; [reflexivity|]. split; [apply Bf; lia|].
          intros b fds [J|[]]. assert (b = firstn n bf) by congruence. assert (fds = firstn (Nat.min SCM_MAX_FD (length q)) q) by congruence. subst.
          rewrite !firstn_length. unfold SCM_MAX_FD. lia.
        + assert (q1 = q) by congruence. assert (w1 = []) by congruence. assert (r1 = Err e) by congruence. subst. (split; [|split]); [reflexivity|reflexivity|intros ? ? []].
        + assert (q1 = q) by congruence. assert (w1 = []) by congruence. assert (r1 = Panic) by congruence. subst. (split; [|split]); [reflexivity|reflexivity|intros ? ? []]. }
    destruct X as (X1 & X2 & X3). split; [|split].
    + rewrite map_app, concat_app, <- app_assoc, I1. exact X1.
    + rewrite map_app, concat_app, I2, X2. unfold accepted. cbn [combine map concat fst snd]. reflexivity.
    + intros b fds J. apply in_app_or in J. destruct J; eauto.
Qed.
Print Assumptions C83_in_order.

(** [Write::write_all] of the standard library over a socket that has the given behaviours in turn: writes that are interrupted
    ([EOTHER 4]) are repeated, an error or nothing written ends it.  [None]: it still runs at the end of the list *)
Fixpoint write_all {F} (q : list F) (buf : bytes) (sends : list (nat -> res errno nat)) : list F * list (bytes * list F) * option (res errno unit) :=
  match buf with
  | [] => (q, [], Some (Ok tt))
  | _ :: _ =>
      match sends with
      | [] => (q, [], None)
      | send :: sends =>
          let '(q, w, r) := write_fds q buf send in
          match r with
          | Ok 0 => (q, w, Some (Err (EOTHER 0)))
          | Ok n => let '(q, w', r) := write_all q (skipn n buf) sends in (q, w ++ w', r)
          | Err (EOTHER 4) => let '(q, w', r) := write_all q buf sends in (q, w ++ w', r)
          | Err e => (q, w, Some (Err e))
          | Panic => (q, w, Some Panic)
          end
      end
  end.
(** C83: a message of at least one byte per 253 descriptors takes all of them along *)
Theorem C83_all_sent_partial : forall F sends (q : list F) buf q' w,
  (forall x, In x sends -> sane x) -> length q <= 253 * length buf ->
  write_all q buf sends = (q', w, Some (Ok tt)) ->
  q' = [] /\ concat (map fst w) = buf /\ concat (map snd w) = q.
Proof.
  intros F. induction sends as [|send sends IH]; intros q buf q' w Sa L H; cbn [write_all] in H.
  - destruct buf as [|b0 buf]; [|discriminate H]. cbn in L. destruct q; [|cbn in L; lia]. assert (q' = []) by congruence. assert (w = []) by congruence. subst. auto.
  - destruct buf as [|b0 buf].
    + cbn in L. destruct q; [|cbn in L; lia]. assert (q' = []) by congruence. assert (w = []) by congruence. subst. auto.
    + set (bb := b0 :: buf) in *. destruct (write_fds q bb send) as [[q1 w1] r1] eqn:W.
      assert (Sa' : forall x, In x sends -> sane x) by (intros x J; apply Sa; right; exact J). unfold write_fds in W. cbv zeta in W. unfold bb in W at 1. cbv iota in W.
      match type of W with context [send (length ?x)] => set (bf := x) in W end.
      destruct (send (length bf)) as [n|e|] eqn:Sd.
      * assert (Lf : 1 <= length bf) by (unfold bf, bb; destruct (Nat.leb (length q) SCM_MAX_FD); cbn; lia). pose proof (Sa send (or_introl eq_refl) _ _ Lf Sd) as Ln. assert (q1 = skipn (Nat.min SCM_MAX_FD (length q)) q) by congruence.
        assert (w1 = [(firstn n bf, firstn (Nat.min SCM_MAX_FD (length q)) q)]) by congruence. assert (r1 = Ok n) by congruence. subst q1 w1 r1.
        destruct n as [|n]; [lia|]. destruct (write_all _ (skipn (S n) bb) sends) as [[q2 w2] r2] eqn:Wa.
        assert (r2 = Some (Ok tt)) by congruence. assert (q2 = q') by congruence. subst r2 q2.
        match type of H with (_, ?x, _) = _ => assert (Ew : x = w) by congruence end. subst w.
        assert (Lb : length (skipn (Nat.min SCM_MAX_FD (length q)) q) <= 253 * length (skipn (S n) bb)).
        { rewrite !skipn_length. unfold SCM_MAX_FD. unfold bf in Ln. destruct (Nat.leb_spec (length q) SCM_MAX_FD) as [X|X]; unfold SCM_MAX_FD in X; [lia|].
          rewrite firstn_length in Ln. assert (n = 0) by lia. subst n. lia. }
        destruct (IH _ _ _ _ Sa' Lb Wa) as (-> & I2 & I3). split; [reflexivity|]. cbn [List.app map fst snd concat]. rewrite I2, I3.
        split; [|apply firstn_skipn]. replace (firstn (S n) bf) with (firstn (S n) bb); [apply firstn_skipn|].
        unfold bf in *. destruct (Nat.leb (length q) SCM_MAX_FD); [reflexivity|]. rewrite firstn_length in Ln. rewrite firstn_firstn, Nat.min_l by lia. reflexivity.
      * assert (r1 = Err e) by congruence. subst r1. assert (q1 = q) by congruence. assert (w1 = []) by congruence. subst q1 w1.
        assert (X : write_all q bb sends = (q', w, Some (Ok tt))).
        { destruct e as [| | | | |m]; try discriminate H. destruct m as [|[|[|[|[|m]]]]]; try discriminate H.
          destruct (write_all q bb sends) as [[q2 w2] r2]. exact H. }
        exact (IH q bb q' w Sa' L X).
      * assert (r1 = Panic) by congruence. subst r1. discriminate H.
Qed.
Print Assumptions C83_all_sent_partial.
(** C83 fails for shorter messages: writing the message succeeds, and descriptors are left in the queue *)
Theorem C83_all_sent_refuted : exists (q : list nat) buf sends q' w,
  (forall x, In x sends -> sane x) /\ buf <> [] /\ write_all q buf sends = (q', w, Some (Ok tt)) /\ length q' = 1.
Proof.
  exists (seq 0 254), [x00], [fun n => Ok n]. eexists _, _. split; [|split; [discriminate|split; [vm_compute; reflexivity|reflexivity]]].
  intros x [<-|[]] n m L H. assert (m = n) by congruence. subst. lia.
Qed.
Print Assumptions C83_all_sent_refuted.

(** * C84: receiving descriptors *)

Lemma deliver_ok : forall fs k k' got, deliver k fs = (k', got) ->
  NoDup got /\ length got <= length fs /\ limit k' = limit k /\
  Forall2 (fun m f => tab k m = None /\ tab k' m = Some (f, false)) got (firstn (length got) fs) /\
  (forall m, ~ In m got -> tab k' m = tab k m) /\
  (length got < length fs -> forall m, m < limit k -> tab k' m <> None).
Proof.
  induction fs as [|f fs IH]; intros k k' got H; cbn [deliver] in H.
  - assert (k = k') by congruence. assert (got = []) by congruence. subst. repeat split; auto; try constructor; cbn; lia.
  - destruct (lowest (tab k) 0 (limit k)) as [m|] eqn:Lo.
    + destruct (deliver (with_tab k (upd (tab k) m (Some (f, false)))) fs) as [k1 l] eqn:D.
      assert (k1 = k') by congruence. assert (got = m :: l) by congruence. subst. apply lowest_some in Lo. destruct Lo as [Lm Fm].
      apply IH in D. cbn [with_tab tab limit] in D. destruct D as (D1 & D2 & D3 & D4 & D5 & D6).
      assert (Nm : ~ In m l).
      { intros J. clear - D4 J. revert D4. generalize (firstn (length l) fs). intros gs D4. induction D4 as [|a b l gs [A _] _ IH]; [destruct J|].
        destruct J as [<-|J]; [rewrite upd_same in A; discriminate A|exact (IH J)]. }
      split; [constructor; assumption|]. split; [cbn; lia|]. split; [exact D3|]. split; [|split].
      * cbn [length firstn]. constructor; [split; [exact Fm|]; rewrite D5 by exact Nm; apply upd_same|].
        clear - D4 Nm. revert D4. generalize (firstn (length l) fs). intros gs D4. induction D4 as [|a b l gs [A B] _ IH]; constructor.
        -- split; [|exact B]. rewrite upd_other in A; [exact A|]. intros ->. apply Nm. left. reflexivity.
        -- apply IH. intros J. apply Nm. right. exact J.
      * intros x J. rewrite D5 by (intros J'; apply J; right; exact J'). apply upd_other. intros ->. apply J. left. reflexivity.
      * cbn [length]. intros L. apply D6. lia.
    + assert (k = k') by congruence. assert (got = []) by congruence. subst. repeat split; auto; try constructor; cbn; try lia.
      intros _ m Lm. apply (lowest_none _ _ _ m Lo). lia.
Qed.

Lemma claim_all_ok : forall got k q k' q' rest e, NoDup got -> claim_all k got q = (k', q', rest, e) ->
  match e with
  | None => q' = q ++ got /\ rest = [] /\ (forall m f c, In m got -> tab k m = Some (f, c) -> tab k' m = Some (f, true)) /\ (forall m, ~ In m got -> tab k' m = tab k m)
  | Some _ => exists l1 bad, got = l1 ++ bad :: rest /\ q' = q ++ l1 /\ tab k' bad = None /\ (forall m, ~ In m got -> tab k' m = tab k m)
  end.
Proof.
  induction got as [|n got IH]; intros k q k' q' rest e Nd H; cbn [claim_all] in H.
  - assert (e = None) by congruence. assert (k = k') by congruence. assert (q = q') by congruence. assert (rest = []) by congruence. subst. rewrite app_nil_r. repeat split; auto. intros m f c [].
  - inversion Nd as [|? ? Nn Nd']; subst. destruct (claim_fd_inplace k (Z.of_nat n)) as [k1 r] eqn:C. destruct r as [m|e'|].
    + apply C81_inplace in C. destruct C as (En & f & c & T & T' & O). apply Nat2Z.inj in En. subst m.
      apply IH in H; [|exact Nd']. destruct e as [e|].
      * destruct H as (l1 & bad & -> & -> & B & O'). exists (n :: l1), bad. rewrite <- app_assoc. cbn [List.app]. repeat split; auto.
        intros m J. rewrite O' by (intros J'; apply J; right; exact J'). apply O. intros ->. apply J. left. reflexivity.
      * destruct H as (-> & -> & Cl & O'). rewrite <- app_assoc. cbn [List.app]. repeat split; auto.
        -- intros m g c' [<-|J] Tm.
           ++ rewrite O' by exact Nn. congruence.
           ++ apply (Cl m g c' J). rewrite O; [exact Tm|]. intros ->. contradiction.
        -- intros m J. rewrite O' by (intros J'; apply J; right; exact J'). apply O. intros ->. apply J. left. reflexivity.
    + assert (e = Some e') by congruence. assert (k1 = k') by congruence. assert (q = q') by congruence. assert (got = rest) by congruence. subst. cbn.
      pose proof (C81_inplace_failed _ _ _ _ C) as O. exists [], n. cbn [List.app]. rewrite app_nil_r. repeat split; auto.
      * rewrite O, Z.eqb_refl. reflexivity.
      * intros m J. rewrite O. destruct (Z.eqb_spec (Z.of_nat m) (Z.of_nat n)) as [E|E]; [|reflexivity]. exfalso. apply J. left. lia.
    + destruct (C81_minus_one_refuted k (Z.of_nat n)) as [_ [M _]]. rewrite C in M. specialize (M eq_refl). lia.
Qed.
Lemma close_all_tab : forall l k m, tab (close_all k l) m = if existsb (Nat.eqb m) l then None else tab k m.
Proof.
  unfold close_all. induction l as [|n l IH]; intros k m; cbn [fold_left existsb]; [reflexivity|]. rewrite IH, close_tab. unfold upd.
  destruct (existsb (Nat.eqb m) l); [now rewrite orb_true_r|]. rewrite orb_false_r. reflexivity.
Qed.

(** C84: a read that succeeds appends the descriptors that came with it to the queue, in their order and as far as there is room in the
    queue and in the table; they have new numbers, are not inherited by other programs, and no other number is concerned *)
Theorem C84_received : forall max q k recv k' q' n,
  read_fds max q k recv = (k', q', Ok n) ->
  exists files got, recv = Ok (n, files) /\ q' = q ++ got /\ NoDup got /\ length got <= max - length q /\
    Forall2 (fun m f => tab k m = None /\ tab k' m = Some (f, true)) got (firstn (length got) files) /\
    (forall m, ~ In m got -> tab k' m = tab k m) /\
    (length got = Nat.min (max - length q) (length files) \/ forall m, m < limit k -> tab k' m <> None).
Proof.
  intros max q k recv k' q' n H. unfold read_fds in H. destruct recv as [[n' files]|e|]; [|discriminate H|discriminate H].
  destruct (deliver k (firstn (max - length q) files)) as [k1 got] eqn:D. apply deliver_ok in D. destruct D as (D1 & D2 & D3 & D4 & D5 & D6).
  destruct (claim_all k1 got q) as [[[k2 q2] rest] e] eqn:C. pose proof (claim_all_ok _ _ _ _ _ _ _ D1 C) as X. destruct e as [e|]; [discriminate H|].
  destruct X as (Eq & _ & Cl & O). assert (k2 = k') by congruence. assert (q2 = q') by congruence. assert (n' = n) by congruence. subst.
  rewrite firstn_length in D2. assert (Ef : firstn (length got) (firstn (max - length q) files) = firstn (length got) files) by (rewrite firstn_firstn, Nat.min_l by lia; reflexivity).
  rewrite Ef in D4. exists files, got. split; [reflexivity|]. split; [reflexivity|]. split; [exact D1|]. split; [lia|]. split; [|split].
  - clear - D4 Cl. assert (Cl' : forall m f, In m got -> tab k1 m = Some (f, false) -> tab k' m = Some (f, true)) by (intros; eapply Cl; eassumption). clear Cl.
    revert D4 Cl'. generalize (firstn (length got) files). intros fs D4. induction D4 as [|a b l fs [A B] _ IH]; intros Cl'; constructor.
    + split; [exact A|]. apply Cl'; [left; reflexivity|exact B].
    + apply IH. intros m f J. apply Cl'. right. exact J.
  - intros m J. rewrite O, D5 by exact J. reflexivity.
  - destruct (Nat.eq_dec (length got) (Nat.min (max - length q) (length files))) as [E|E]; [left; exact E|right]. intros m Lm.
    rewrite firstn_length in D6. assert (Dm : tab k1 m <> None) by (apply D6; lia). destruct (in_dec Nat.eq_dec m got) as [J|J]; [|now rewrite O].
    destruct (tab k1 m) as [[f c]|] eqn:T; [|contradiction]. rewrite (Cl m f c J T). discriminate.
Qed.
Print Assumptions C84_received.

(** C84: a read that fails, at whatever point, leaves the queue and all descriptors as they were: none of those that came with it stays
    open *)
Theorem C84_failed : forall max q k recv k' q' e,
  read_fds max q k recv = (k', q', Err e) -> q' = q /\ forall m, tab k' m = tab k m.
Proof.
  intros max q k recv k' q' e H. unfold read_fds in H. destruct recv as [[n' files]|e'|].
  - destruct (deliver k (firstn (max - length q) files)) as [k1 got] eqn:D. apply deliver_ok in D. destruct D as (D1 & _ & _ & D4 & D5 & _).
    destruct (claim_all k1 got q) as [[[k2 q2] rest] e0] eqn:C. pose proof (claim_all_ok _ _ _ _ _ _ _ D1 C) as X. destruct e0 as [e0|]; [|discriminate H].
    destruct X as (l1 & bad & Eg & Eq & B & O). assert (Ek : k' = close_all (close_all k2 (skipn (length q) q2)) rest) by congruence.
    assert (Ef : q' = firstn (length q) q2) by congruence. subst k' q' q2.
    rewrite firstn_app, Nat.sub_diag, firstn_all, firstn_O, app_nil_r. split; [reflexivity|]. rewrite skipn_app, skipn_all, Nat.sub_diag. cbn [skipn List.app].
    intros m. rewrite !close_all_tab.
    assert (Fr : In m got -> tab k m = None).
    { clear - D4. revert D4. generalize (firstn (length got) (firstn (max - length q) files)). intros fs D4. induction D4 as [|a b l fs [A _] _ IH]; intros J; [destruct J|].
      destruct J as [<-|J]; auto. }
    assert (Ex : forall l, existsb (Nat.eqb m) l = true <-> In m l).
    { intros l. rewrite existsb_exists. split; [intros (x & J & E); apply Nat.eqb_eq in E; subst; exact J|intros J; exists m; rewrite Nat.eqb_refl; auto]. }
    destruct (existsb (Nat.eqb m) rest) eqn:E1; [symmetry; apply Fr; rewrite Eg; apply in_or_app; right; right; apply Ex; exact E1|].
    destruct (existsb (Nat.eqb m) l1) eqn:E2; [symmetry; apply Fr; rewrite Eg; apply in_or_app; left; apply Ex; exact E2|].
    destruct (Nat.eq_dec m bad) as [->|Nb]; [rewrite B; symmetry; apply Fr; rewrite Eg; apply in_or_app; right; left; reflexivity|].
    assert (Ng : ~ In m got).
    { rewrite Eg. intros J. apply in_app_or in J. destruct J as [J|[J|J]]; [|congruence|]; apply Ex in J; congruence. }
    now rewrite O, D5.
  - assert (k = k') by congruence. assert (q = q') by congruence. subst. auto.
  - discriminate H.
Qed.
Print Assumptions C84_failed.

(** C84: no read makes the queue longer than its limit *)
Theorem C84_limit : forall max q k recv k' q' r,
  read_fds max q k recv = (k', q', r) -> length q <= max -> length q' <= max.
Proof.
  intros max q k recv k' q' r H L. destruct r as [n|e|].
  - apply C84_received in H. destruct H as (files & got & _ & -> & _ & Lg & _). rewrite app_length. lia.
  - apply C84_failed in H. destruct H as [-> _]. exact L.
  - unfold read_fds in H. destruct recv as [[n' files]|e'|]; [|discriminate H|assert (q = q') by congruence; subst; exact L].
    destruct (deliver _ _) as [k1 got]. destruct (claim_all k1 got q) as [[[k2 q2] rest] e0]. destruct e0; discriminate H.
Qed.
Print Assumptions C84_limit.

(** * Cases *)

(** Claiming descriptor 3; the same where a system call fails; in place *)
Example C81_case :
  let k := process [Given 7 KUnixStream] in
  let k' := fst (claim_fd k 3) in
  let f := {| tab := tab k; limit := 20; faults := [None; None; Some (EOTHER 5)] |} in
  snd (claim_fd k 3) = Ok 4 /\ tab k' 4 = Some (Given 7 KUnixStream, true) /\ tab k' 3 = Some (Null, true) /\ tab k' 2 = tab k 2 /\
  snd (claim_fd k 9) = Err EBADF /\ snd (claim_fd k (-2)) = Err EBADF /\
  snd (claim_fd f 3) = Err (EOTHER 5) /\ tab (fst (claim_fd f 3)) 3 = Some (Given 7 KUnixStream, false) /\ tab (fst (claim_fd f 3)) 4 = None /\
  snd (claim_fd_inplace k 3) = Ok 3 /\ tab (fst (claim_fd_inplace k 3)) 3 = Some (Given 7 KUnixStream, true) /\
  snd (claim_fd k' 3) = Ok 5.
Proof. vm_compute. repeat split. Qed.

Example C82_case :
  let k := process [Given 7 KUnixListener; Given 8 KUnixStream] in
  let cfg := {| listen_path := [[x2f]]; listen_fd := []; stream_fd := [4%Z] |} in
  let cli := {| listen_path := []; listen_fd := [3%Z]; stream_fd := [] |} in
  let r := apply_to_app_server (fun _ => Given 9 KUnixListener) (apply_to_api_config cli cfg) k in
  (forall z, In z [3%Z; 4%Z] -> exists e, refers k z e) /\
  snd r = ({| a_listeners := [5; 6]; a_connections := [7] |}, Ok tt) /\
  map (tab (fst r)) (seq 3 6) =
  [Some (Null, true); Some (Null, true); Some (Given 9 KUnixListener, true); Some (Given 7 KUnixListener, true); Some (Given 8 KUnixStream, true); None].
Proof.
  cbv zeta. split.
  - intros z [<-|[<-|[]]]; eexists; (split; [lia|reflexivity]).
  - vm_compute. split; reflexivity.
Qed.

Example C83_case :
  let send := fun n => Ok n in
  sane send /\
  writes (seq 0 254) [([], send); ([x01; x02], send); ([x02], fun _ => Err (EOTHER 11)); ([x02], send); ([x03], send)]
  = ([], [([x01], seq 0 253); ([x02], [253]); ([x03], [])], [Ok 0; Ok 1; Err (EOTHER 11); Ok 1; Ok 1]).
Proof.
  cbv zeta. split; [|vm_compute; reflexivity]. intros n m L H. assert (m = n) by congruence. subst. lia.
Qed.

Example C84_case :
  let k := process [Given 7 KUnixStream] in
  let files := [Given 1 KPollable; Given 2 KPlain; Given 3 KPlain] in
  let k' := fst (fst (read_fds 3 [3] k (Ok (5, files)))) in
  let f := {| tab := tab k; limit := 20; faults := [None; None; Some EMFILE] |} in
  read_fds 3 [3] k (Ok (5, files)) = (k', [3; 4; 5], Ok 5) /\ tab k' 4 = Some (Given 1 KPollable, true) /\ tab k' 5 = Some (Given 2 KPlain, true) /\ tab k' 6 = None /\
  snd (read_fds 3 [3] f (Ok (5, files))) = Err EMFILE /\ snd (fst (read_fds 3 [3] f (Ok (5, files)))) = [3].
Proof. vm_compute. repeat split. Qed.
