(** C87: the memory of secrets comes from the allocator that was chosen. *)
From Coq Require Import Permutation.
From Verif Require Import Base Alloc.

Definition block_of (x : abox) : atype * N := (x_type x, x_addr x).
(** What holds at all times: memsec has given out exactly the blocks of the boxes, each once, and nothing was given back that
    it had not given. *)
Record sound (s : astate) : Prop := {
  so_tame : a_wild s = false;
  so_blocks : Permutation (a_given s) (map block_of (a_boxes s));
  so_once : NoDup (map snd (a_given s));
  so_type : forall x, In x (a_boxes s) -> x_secret x = true -> a_type s = Some (x_type x);
  so_aligned : forall x, In x (a_boxes s) -> x_align x <> 0%N -> (x_addr x mod x_align x = 0)%N
}.

Lemma atype_eqb_eq a b : atype_eqb a b = true <-> a = b.
Proof. destruct a, b; cbn; split; congruence. Qed.
Lemma block_eqb_eq x y : block_eqb x y = true <-> x = y.
Proof.
  destruct x as [k a], y as [k' a']. unfold block_eqb. cbn [fst snd]. rewrite Bool.andb_true_iff, atype_eqb_eq, N.eqb_eq.
  split; [intros [-> ->]; reflexivity|intros H; split; congruence].
Qed.
Lemma remove_one_perm x l : In x l -> Permutation l (x :: remove_one x l).
Proof.
  induction l as [|y l IH]; [intros []|]. intros H. cbn [remove_one]. destruct (block_eqb x y) eqn:E.
  - apply block_eqb_eq in E. subst y. reflexivity.
  - destruct H as [H|H]; [subst y; assert (X : block_eqb x x = true) by (apply block_eqb_eq; reflexivity); congruence|].
    rewrite (IH H) at 1. apply perm_swap.
Qed.
Lemma existsb_in x l : existsb (block_eqb x) l = true <-> In x l.
Proof.
  rewrite existsb_exists. split.
  - intros (y & I & E). apply block_eqb_eq in E. congruence.
  - intros I. exists x. split; [assumption|]. apply block_eqb_eq. reflexivity.
Qed.
Lemma fresh_addr a l : existsb (fun x : atype * N => N.eqb a (snd x)) l = false -> ~ In a (map snd l).
Proof.
  intros E I. apply in_map_iff in I as (x & <- & I). assert (T : existsb (fun y : atype * N => N.eqb (snd x) (snd y)) l = true).
  { apply existsb_exists. exists x. split; [assumption|apply N.eqb_refl]. }
  congruence.
Qed.

Lemma remove_head k a l : remove_one (k, a) ((k, a) :: l) = l.
Proof. cbn [remove_one]. replace (block_eqb (k, a) (k, a)) with true by (symmetry; apply block_eqb_eq; reflexivity). reflexivity. Qed.

(** Either a new block is accounted for, or nothing is changed. *)
Lemma allocate_spec k al ans s s' mem : allocate k al ans s = (s', mem) ->
  (exists a, mem = Some a /\ ans = Some a /\ align_offset a al = 0%N /\ ~ In a (map snd (a_given s)) /\
     s' = {| a_type := a_type s; a_given := (k, a) :: a_given s; a_boxes := a_boxes s; a_wild := a_wild s |}) \/
  (mem = None /\ s' = s).
Proof.
  unfold allocate, mem_get. intros H. destruct ans as [a|]; [|right; split; congruence].
  destruct (existsb _ _) eqn:E; [right; split; congruence|].
  destruct (N.eqb_spec (align_offset a al) 0) as [Z|Z].
  - left. exists a. assert (Some a = mem) by congruence. subst mem. repeat split; try assumption; [apply fresh_addr, E|congruence].
  - right. assert (mem = None) by congruence. split; [assumption|].
    unfold mem_free in H. cbn [a_given a_type a_boxes a_wild] in H.
    replace (existsb (block_eqb (k, a)) ((k, a) :: a_given s)) with true in H by (symmetry; apply existsb_in; left; reflexivity).
    rewrite remove_head in H. destruct s as [t g bx w]. cbn [a_given a_type a_boxes a_wild] in *. congruence.
Qed.

Lemma free_spec k a s : In (k, a) (a_given s) -> mem_free k a s =
  {| a_type := a_type s; a_given := remove_one (k, a) (a_given s); a_boxes := a_boxes s; a_wild := a_wild s |}.
Proof. intros I. unfold mem_free. replace (existsb _ _) with true by (symmetry; apply existsb_in, I). reflexivity. Qed.

Lemma probe_nothing al ans s s' a : allocate Memfd al ans s = (s', Some a) -> deallocate Memfd a s' = s.
Proof.
  intros H. destruct (allocate_spec _ _ _ _ _ _ H) as [(a' & Em & _ & _ & _ & ->)|[Em _]]; [|discriminate].
  assert (a' = a) by congruence. subst a'. unfold deallocate. rewrite free_spec by (left; reflexivity).
  cbn [a_given a_type a_boxes a_wild]. rewrite remove_head. destruct s; reflexivity.
Qed.

Lemma aligned a al : (al <> 0 -> align_offset a al = 0 -> a mod al = 0)%N.
Proof.
  unfold align_offset. intros Z H.
  pose proof (N.mod_lt a al Z). destruct (N.eq_dec (a mod al) 0) as [|Y]; [assumption|].
  remember (a mod al)%N as r. rewrite N.mod_small in H; lia.
Qed.

Lemma use_type_state k s : fst (use_type k s) = match a_type s with None => with_type (Some k) s | Some _ => s end.
Proof. unfold use_type, get_or_init. destruct (a_type s); reflexivity. Qed.
Lemma try_memfd_cases ans s : exists k, policy_try_memfd ans s = use_type k s.
Proof.
  unfold policy_try_memfd. destruct (allocate Memfd 1 ans s) as [s' [a|]] eqn:E.
  - exists Memfd. now rewrite (probe_nothing _ _ _ _ _ E).
  - exists Malloc. destruct (allocate_spec _ _ _ _ _ _ E) as [(a' & Em & _)|[_ ->]]; [discriminate|reflexivity].
Qed.

Lemma sound_use k s : sound s -> sound (fst (use_type k s)).
Proof.
  intros S. rewrite use_type_state. destruct (a_type s) eqn:E; [assumption|]. destruct S as [T B O Ty A].
  constructor; try assumption. intros x I Sx. specialize (Ty x I Sx). congruence.
Qed.
Lemma sound_box se tr k al ans s : sound s -> (se = true -> a_type s = Some k) -> sound (fst (box_in se tr k al ans s)).
Proof.
  intros S Hk. unfold box_in. destruct (allocate k al ans s) as [s' mem] eqn:E.
  destruct (allocate_spec _ _ _ _ _ _ E) as [(a & -> & _ & Z & F & ->)|[-> ->]]; [|destruct tr; exact S].
  destruct S as [T B O Ty A]. constructor; cbn [fst with_boxes a_given a_boxes a_type a_wild]; try assumption.
  - cbn [map]. apply perm_skip, B.
  - cbn [map snd]. constructor; assumption.
  - intros x [I|I] Sx; [|apply Ty; assumption]. subst x. cbn [x_secret x_type] in *. apply Hk, Sx.
  - intros x [I|I]; [|apply A, I]. subst x. cbn [x_addr x_align]. intros Nz. apply aligned; assumption.
Qed.

Lemma split_nth {A} (l : list A) i x : nth_error l i = Some x -> Permutation l (x :: firstn i l ++ skipn (S i) l).
Proof.
  revert l. induction i as [|i IH]; intros [|y l] H; cbn [nth_error] in H; try discriminate.
  - assert (y = x) by congruence. subst. cbn [firstn skipn List.app]. reflexivity.
  - cbn [firstn]. change (skipn (S (S i)) (y :: l)) with (skipn (S i) l). cbn [List.app].
    rewrite (IH l H) at 1. apply perm_swap.
Qed.

Lemma sound_step o s : sound s -> sound (fst (a_step o s)).
Proof.
  intros S. destruct o as [k|ans| | |tr al ans|tr k al ans|i]; cbn [a_step].
  - unfold set_type. destruct (a_type s) eqn:E; cbn [fst]; [assumption|]. destruct S as [T B O Ty A].
    constructor; try assumption. intros x I Sx. specialize (Ty x I Sx). congruence.
  - destruct (try_memfd_cases ans s) as (k & ->). apply sound_use, S.
  - apply sound_use, S.
  - apply sound_use, S.
  - unfold secret_box. destruct (a_type s) as [k|] eqn:E; [|exact S]. apply sound_box; [assumption|trivial].
  - apply sound_box; [assumption|discriminate].
  - unfold drop_box. destruct (nth_error (a_boxes s) i) as [x|] eqn:E; [|exact S]. cbn [fst]. destruct S as [T B O Ty A].
    assert (Ix : In x (a_boxes s)) by (apply nth_error_In in E; assumption).
    assert (Ig : In (x_type x, x_addr x) (a_given s)).
    { apply (Permutation_in _ (Permutation_sym B)). change (x_type x, x_addr x) with (block_of x). apply in_map, Ix. }
    unfold deallocate. rewrite free_spec by assumption. pose proof (remove_one_perm _ _ Ig) as P1. pose proof (split_nth _ _ _ E) as P2.
    assert (Sub : forall y, In y (firstn i (a_boxes s) ++ skipn (Datatypes.S i) (a_boxes s)) -> In y (a_boxes s)).
    { intros y I. apply (Permutation_in _ (Permutation_sym P2)). right. exact I. }
    constructor; cbn [with_boxes a_given a_boxes a_type a_wild].
    + assumption.
    + apply (Permutation_cons_inv (a := (x_type x, x_addr x))). rewrite <- P1, B.
      change ((x_type x, x_addr x) :: map block_of (firstn i (a_boxes s) ++ skipn (Datatypes.S i) (a_boxes s)))
        with (map block_of (x :: firstn i (a_boxes s) ++ skipn (Datatypes.S i) (a_boxes s))). apply Permutation_map, P2.
    + pose proof (Permutation_map snd P1) as P3. apply (Permutation_NoDup P3) in O. cbn [map] in O. inversion O. assumption.
    + intros y I. apply Ty, Sub, I.
    + intros y I. apply A, Sub, I.
Qed.

Lemma sound_run os : forall s, sound s -> sound (a_run os s).
Proof. induction os as [|o os IH]; intros s S; [assumption|]. cbn [a_run]. apply IH, sound_step, S. Qed.
Lemma sound_init : sound a_init.
Proof. constructor; cbn; try reflexivity; [constructor|intros ? []|intros ? []]. Qed.

Lemma type_step o s k : a_type s = Some k -> a_type (fst (a_step o s)) = Some k.
Proof.
  intros T. assert (U : forall k', a_type (fst (use_type k' s)) = Some k) by (intros k'; rewrite use_type_state, T; exact T).
  assert (X : forall se tr k' al ans, a_type (fst (box_in se tr k' al ans s)) = Some k).
  { intros. unfold box_in. destruct (allocate k' al ans s) as [s' mem] eqn:E.
    destruct (allocate_spec _ _ _ _ _ _ E) as [(a & -> & _ & _ & _ & ->)|[-> ->]]; cbn [fst with_boxes a_type]; exact T. }
  destruct o as [k'|ans| | |tr al ans|tr k' al ans|i]; cbn [a_step]; try apply U.
  - unfold set_type. rewrite T. exact T.
  - destruct (try_memfd_cases ans s) as (k' & ->). apply U.
  - unfold secret_box. rewrite T. apply X.
  - apply X.
  - unfold drop_box. destruct (nth_error (a_boxes s) i); cbn [fst with_boxes a_type]; [|exact T].
    unfold deallocate, mem_free. destruct (existsb _ _); exact T.
Qed.

(** C87, first part.  Once an allocator has been chosen, it stays, whatever the program does in whatever order. *)
Theorem C87_choice_is_final : forall os s k, a_type s = Some k -> a_type (a_run os s) = Some k.
Proof. induction os as [|o os IH]; intros s k T; [assumption|]. cbn [a_run]. apply IH, type_step, T. Qed.
Print Assumptions C87_choice_is_final.

(** Second part.  At all times, every secret that exists has memory from the chosen allocator.  Partial: that choosing the same policy
    again changes nothing is false, see [C87_try_again_refuted]. *)
Theorem C87_secrets_use_the_choice_partial : forall os x, In x (a_boxes (a_run os a_init)) -> x_secret x = true ->
  a_type (a_run os a_init) = Some (x_type x).
Proof. intros os. apply so_type, sound_run, sound_init. Qed.
Print Assumptions C87_secrets_use_the_choice_partial.

(** Third part.  Memory goes back to the allocator it came from and is not given back twice; the blocks that are out are
    exactly those of the values that exist, and no two values share one.  In particular nothing is lost when a block is refused
    for its alignment or taken as a test. *)
Theorem C87_blocks_are_accounted_for : forall os,
  a_wild (a_run os a_init) = false /\
  Permutation (a_given (a_run os a_init)) (map (fun x => (x_type x, x_addr x)) (a_boxes (a_run os a_init))) /\
  NoDup (map x_addr (a_boxes (a_run os a_init))).
Proof.
  intros os. destruct (sound_run os _ sound_init) as [T B O _ _]. repeat split; [assumption|exact B|].
  apply (Permutation_map snd) in B. apply (Permutation_NoDup B) in O. rewrite map_map in O. exact O.
Qed.
Print Assumptions C87_blocks_are_accounted_for.

(** Fourth part.  Memory is aligned as the value needs it.  (An alignment is a power of two, and never 0.) *)
Theorem C87_memory_is_aligned : forall os x, In x (a_boxes (a_run os a_init)) -> x_align x <> 0%N -> (x_addr x mod x_align x = 0)%N.
Proof. intros os. apply so_aligned, sound_run, sound_init. Qed.
Print Assumptions C87_memory_is_aligned.

(** Fifth part.  Without a choice there is no secret: the attempt panics and changes nothing. *)
Theorem C87_no_secret_without_choice : forall try align answer s, a_type s = None -> secret_box try align answer s = (s, Panicked).
Proof. intros try align answer s T. unfold secret_box. now rewrite T. Qed.
Print Assumptions C87_no_secret_without_choice.

(** Sixth part.  A policy either is in force afterwards, or panics and leaves the choice that was made before. *)
Theorem C87_policy_in_force : forall o s s' r, a_step o s = (s', r) ->
  (o = AOnlyMemfd -> r = Done /\ a_type s' = Some Memfd \/ r = Panicked /\ s' = s /\ a_type s = Some Malloc) /\
  (o = AOnlyMalloc -> r = Done /\ a_type s' = Some Malloc \/ r = Panicked /\ s' = s /\ a_type s = Some Memfd) /\
  (forall ans, o = ATryMemfd ans -> r = Done /\ a_type s' <> None \/ r = Panicked /\ s' = s /\ a_type s <> None) /\
  (forall k, o = ASet k -> r = Done /\ a_type s = None /\ a_type s' = Some k \/ r = Panicked /\ s' = s /\ a_type s <> None).
Proof.
  intros o s s' r H.
  assert (U : forall k, use_type k s = (s', r) -> r = Done /\ a_type s' = Some k \/
    r = Panicked /\ s' = s /\ a_type s = Some (match k with Malloc => Memfd | Memfd => Malloc end)).
  { intros k E. unfold use_type, get_or_init in E. destruct (a_type s) as [k'|] eqn:T.
    - assert (s' = s) by congruence. subst s'. destruct k, k'; cbn in E; assert (r = Done \/ r = Panicked) by (destruct r; auto; congruence);
        destruct r; try congruence; [left|right|right|left]; repeat split; auto.
    - left. assert (s' = with_type (Some k) s) by congruence. subst s'. split; [destruct k; cbn in E; congruence|reflexivity]. }
  split; [|split; [|split]].
  - intros ->. exact (U Memfd H).
  - intros ->. exact (U Malloc H).
  - intros ans ->. cbn [a_step] in H. destruct (try_memfd_cases ans s) as (k & E). rewrite E in H.
    destruct (U k H) as [[R T]|(R & S & T)]; [left; split; [assumption|rewrite T; discriminate]|right; repeat split; try assumption].
    intros N. rewrite T in N. discriminate.
  - intros k ->. cbn [a_step] in H. unfold set_type in H. destruct (a_type s) eqn:T.
    + right. split; [congruence|]. split; congruence.
    + left. split; [congruence|]. split; [reflexivity|]. assert (s' = with_type (Some k) s) by congruence. subst s'. reflexivity.
Qed.
Print Assumptions C87_policy_in_force.

(** With only [memfd_secret] allowed, ordinary memory is never used instead: a secret is made there or not at all. *)
Theorem C87_no_fallback : forall try align answer s s' r, a_type s = Some Memfd -> secret_box try align answer s = (s', r) ->
  (r = Done -> exists x, a_boxes s' = x :: a_boxes s /\ x_secret x = true /\ x_type x = Memfd) /\
  (r <> Done -> s' = s /\ r = if try then Refused else Aborted).
Proof.
  intros try align answer s s' r T H. unfold secret_box, box_in in H. rewrite T in H.
  destruct (allocate Memfd align answer s) as [s1 mem] eqn:E.
  destruct (allocate_spec _ _ _ _ _ _ E) as [(a & -> & _ & _ & _ & ->)|[-> ->]].
  - split; [|intros N; exfalso; apply N; congruence]. intros _. eexists. pose proof (f_equal fst H) as X. cbn [fst] in X.
    rewrite <- X. cbn [with_boxes a_boxes]. repeat split.
  - split; [intros D; destruct try; congruence|]. intros _. split; destruct try; congruence.
Qed.
Print Assumptions C87_no_fallback.

(** The full property has it that choosing the same policy again does nothing.  Not so for the policy that tries: if its test
    gives another answer than the first time, the program panics. *)
Theorem C87_try_again_refuted : exists ans1 ans2 s, policy_try_memfd ans1 a_init = (s, Done) /\
  policy_try_memfd ans2 s = (s, Panicked).
Proof. exists (Some 4096%N), None. eexists. split; reflexivity. Qed.
Print Assumptions C87_try_again_refuted.

(** Non-vacuity: a policy, two secrets of which one is refused for its alignment, and another value; one is dropped. *)
Definition a_demo : list aop :=
  [ATryMemfd (Some 100%N); ASecret false 1 (Some 4095%N); ASecret true 8 (Some 4089%N); ADirect false Malloc 8 (Some 64%N); ADrop 1; ASecret false 1 (Some 4095%N)].
Example C87_witness : a_type (a_run a_demo a_init) = Some Memfd /\
  map (fun x => (x_secret x, x_type x, x_addr x)) (a_boxes (a_run a_demo a_init)) = [(true, Memfd, 4095%N); (false, Malloc, 64%N)] /\
  a_given (a_run a_demo a_init) = [(Memfd, 4095%N); (Malloc, 64%N)].
Proof. vm_compute. repeat split. Qed.
