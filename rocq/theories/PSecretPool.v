(** C41: secrets and their memory. *)
From Coq Require Permutation.
From Verif Require Import Base Lpe PLpe SecretPool.

(** * Specification *)

(** Ideal secrets: each is a string of bytes of its own.  There is no pool, no memory and no thread. *)
Record ideal := { v_val : nat -> option bytes; v_next : nat }.
Definition ideal_init : ideal := {| v_val := fun _ => None; v_next := 0 |}.

Definition fresh (d : bytes) (v : ideal) : ideal * pool_res :=
  ({| v_val := fun h => if Nat.eqb h (v_next v) then Some d else v_val v h; v_next := S (v_next v) |}, RNew (v_next v)).
Definition put (h : nat) (d : option bytes) (v : ideal) : ideal :=
  {| v_val := fun i => if Nat.eqb i h then d else v_val v i; v_next := v_next v |}.

Definition ideal_step (o : pool_op) (v : ideal) : ideal * pool_res :=
  match o with
  | PZero _ n => fresh (zeros n) v
  | PFromSlice _ _ n d => if Nat.eqb (length d) n then fresh d v else (v, RPanic)
  | PRandom _ n draw => fresh (firstn n (draw ++ zeros n)) v
  | PWrite h off d =>
      match v_val v h with
      | None => (v, RGone)
      | Some x => if off + length d <=? length x
                  then (put h (Some (firstn off x ++ d ++ skipn (off + length d) x)) v, RDone) else (v, RPanic)
      end
  | PZeroize h =>
      match v_val v h with None => (v, RGone) | Some x => (put h (Some (zeros (length x))) v, RDone) end
  | PRandomize h draw =>
      match v_val v h with
      | None => (v, RGone) | Some x => (put h (Some (firstn (length x) (draw ++ zeros (length x)))) v, RDone) end
  | PClone _ _ h => match v_val v h with None => (v, RGone) | Some x => fresh x v end
  | PDrop _ h => match v_val v h with None => (v, RGone) | Some _ => (put h None v, RDone) end
  | PThreadEnd _ => (v, RDone)
  end.
Fixpoint ideal_steps (l : list pool_op) (v : ideal) : ideal * list pool_res :=
  match l with
  | [] => (v, [])
  | o :: l => let (v, r) := ideal_step o v in let (v, rs) := ideal_steps l v in (v, r :: rs)
  end.

(** * Invariant *)

(** [e]: blocks that are neither in a pool nor the storage of a secret yet or any more. *)
Record pinv (s : pool_state) (e : list nat) : Prop := {
  pi_live : forall h x, p_live s h = Some x -> h < p_next s /\ In (s_block x) (p_heap s) /\
     exists d, p_mem s (s_block x) = Some d /\ length d = s_size x;
  pi_inj : forall h h' x x', p_live s h = Some x -> p_live s h' = Some x' -> s_block x = s_block x' -> h = h';
  pi_apart : forall h x, p_live s h = Some x -> ~ In (s_block x) (e ++ map snd (p_pool s));
  pi_dup : NoDup (e ++ map snd (p_pool s));
  pi_heap : Forall (fun b => In b (p_heap s)) (e ++ map snd (p_pool s));
  pi_pool : Forall (fun x => p_mem s (snd x) = Some (zeros (snd (fst x)))) (p_pool s);
  pi_wiped : forall b d, p_mem s b = Some d -> (forall h x, p_live s h = Some x -> s_block x <> b) -> ~ In b e ->
     d = zeros (length d)
}.

(** The secrets have not changed. *)
Definition same (s s' : pool_state) : Prop :=
  p_live s' = p_live s /\ p_next s' = p_next s /\
  forall h x, p_live s h = Some x -> p_mem s' (s_block x) = p_mem s (s_block x).

Lemma set_eq {A} (f : nat -> A) k v : set_fn f k v k = v.
Proof. unfold set_fn. now rewrite Nat.eqb_refl. Qed.
Lemma set_neq {A} (f : nat -> A) k v i : i <> k -> set_fn f k v i = f i.
Proof. intros N. unfold set_fn. now rewrite (proj2 (Nat.eqb_neq _ _) N). Qed.

Lemma pinv_init : pinv pool_init [].
Proof. constructor; cbn; try discriminate; try constructor. Qed.

(** What is in a block outside of secrets and pools may change. *)
Lemma pinv_mem s b d e : pinv s (b :: e) ->
  pinv {| p_mem := set_fn (p_mem s) b d; p_heap := p_heap s; p_pool := p_pool s; p_live := p_live s; p_next := p_next s |} (b :: e).
Proof.
  intros I. constructor; cbn [p_mem p_heap p_pool p_live p_next]; try apply I.
  - intros h x L. destruct (pi_live _ _ I h x L) as (A & B & C). split; [exact A|]. split; [exact B|].
    rewrite set_neq; [exact C|]. intros Z. apply (pi_apart _ _ I h x L). rewrite Z. now left.
  - pose proof (pi_pool _ _ I) as F. pose proof (pi_dup _ _ I) as D. cbn [List.app] in D. inversion D as [|? ? Nb _]. subst.
    rewrite Forall_forall in *. intros x Hx. rewrite set_neq; [now apply F|]. intros Z. apply Nb. rewrite <- Z.
    apply in_or_app. right. now apply in_map.
  - intros b' d' M Nl Ne. rewrite set_neq in M; [|intros Z; apply Ne; now left]. now apply (pi_wiped _ _ I b' d').
Qed.
Lemma same_mem s b d e : pinv s (b :: e) ->
  same s {| p_mem := set_fn (p_mem s) b d; p_heap := p_heap s; p_pool := p_pool s; p_live := p_live s; p_next := p_next s |}.
Proof.
  intros I. split; [reflexivity|]. split; [reflexivity|]. cbn [p_mem]. intros h x L. apply set_neq.
  intros Z. apply (pi_apart _ _ I h x L). rewrite Z. now left.
Qed.
Lemma same_refl s : same s s.
Proof. repeat split. Qed.
Lemma same_trans a b c : same a b -> same b c -> same a c.
Proof.
  intros (A1 & A2 & A3) (B1 & B2 & B3). split; [congruence|]. split; [congruence|]. intros h x L.
  rewrite B3 with (h := h) by congruence. now apply A3 with h.
Qed.

Lemma pick_fresh hint l : ~ In (pick hint l) l.
Proof.
  unfold pick. destruct (existsb (Nat.eqb hint) l) eqn:E.
  - intros H. assert (forall x, In x l -> x <= list_max l) as M.
    { apply Forall_forall. apply (proj1 (list_max_le l (list_max l))). auto. }
    specialize (M _ H). lia.
  - intros H. assert (existsb (Nat.eqb hint) l = true) as T; [|congruence].
    apply existsb_exists. exists hint. split; [exact H|apply Nat.eqb_refl].
Qed.

Lemma box_new_ok hint n s e s' b : pinv s e -> box_new hint n s = (s', b) ->
  pinv s' (b :: e) /\ p_mem s' b = Some (zeros n) /\ same s s'.
Proof.
  intros I B. unfold box_new in B. pose proof (pick_fresh hint (p_heap s)) as Fr. set (p := pick hint (p_heap s)) in *.
  injection B as <- <-.
  assert (Nl : forall h x, p_live s h = Some x -> s_block x <> p).
  { intros h x L Z. apply Fr. rewrite <- Z. now apply (pi_live _ _ I h x L). }
  assert (Np : ~ In p (e ++ map snd (p_pool s))).
  { intros H. apply Fr. pose proof (pi_heap _ _ I) as F. rewrite Forall_forall in F. now apply F. }
  split; [|split; [apply set_eq|]].
  - constructor; cbn [p_mem p_heap p_pool p_live p_next]; try apply I.
    + intros h x L. destruct (pi_live _ _ I h x L) as (A & B & C). split; [exact A|]. split; [now right|].
      rewrite set_neq; [exact C|]. now apply Nl with h.
    + intros h x L [Z|H]; [now apply (Nl h x L)|]. now apply (pi_apart _ _ I h x L).
    + constructor; [exact Np|apply I].
    + constructor; [now left|]. eapply Forall_impl; [|apply I]. intros a Ha. now right.
    + pose proof (pi_pool _ _ I) as F. rewrite Forall_forall in *. intros x Hx. rewrite set_neq; [now apply F|].
      intros Z. apply Np. rewrite <- Z. apply in_or_app. right. now apply in_map.
    + intros b' d M L Ne. rewrite set_neq in M; [|intros Z; apply Ne; now left].
      apply (pi_wiped _ _ I b' d M L). intros H. apply Ne. now right.
  - split; [reflexivity|]. split; [reflexivity|]. cbn [p_mem]. intros h x L. apply set_neq. now apply Nl with h.
Qed.

Lemma box_drop_ok b s e : pinv s (b :: e) -> pinv (box_drop b s) e /\ same s (box_drop b s).
Proof.
  intros I. split.
  - pose proof (pinv_mem s b (option_map (fun d => zeros (length d)) (p_mem s b)) e I) as I1.
    unfold box_drop, wipe. cbn [p_mem p_heap p_pool p_live p_next].
    set (m := set_fn (p_mem s) b _) in *.
    assert (K : forall a, a <> b -> In a (p_heap s) -> In a (filter (fun x => negb (Nat.eqb x b)) (p_heap s))).
    { intros a Na Ha. apply filter_In. split; [exact Ha|]. now rewrite (proj2 (Nat.eqb_neq _ _) Na). }
    pose proof (pi_dup _ _ I1) as D. cbn [p_pool List.app] in D. inversion D as [|? ? Nb Dl]. subst.
    constructor; cbn [p_mem p_heap p_pool p_live p_next]; try apply I1; try assumption.
    + intros h x L. destruct (pi_live _ _ I1 h x L) as (A & B & C). cbn [p_mem p_heap p_next] in *. split; [exact A|].
      split; [|exact C]. apply K; [|exact B]. intros Z. apply (pi_apart _ _ I1 h x L). rewrite Z. now left.
    + intros h x L H. apply (pi_apart _ _ I1 h x L). now right.
    + pose proof (pi_heap _ _ I1) as F. cbn [p_heap p_pool List.app] in F. inversion F as [|? ? _ Fl]. subst.
      rewrite Forall_forall in *. intros a Ha. apply K; [congruence|now apply Fl].
    + intros b' d M L Ne. destruct (Nat.eq_dec b' b) as [->|Nb'].
      * unfold m in M. rewrite set_eq in M. destruct (p_mem s b); [|discriminate M]. cbn [option_map] in M.
        injection M as <-. now rewrite zeros_length.
      * apply (pi_wiped _ _ I1 b' d M L). intros [Z|H]; [now symmetry in Z|now apply Ne].
  - apply (same_mem s b _ e I).
Qed.

Lemma pool_release_ok t n b s e d : pinv s (b :: e) -> p_mem s b = Some d -> length d = n ->
  pinv (pool_release t n b s) e /\ same s (pool_release t n b s).
Proof.
  intros I Md Ld. split.
  - pose proof (pinv_mem s b (option_map (fun d => zeros (length d)) (p_mem s b)) e I) as I1.
    unfold pool_release, wipe. cbn [p_mem p_heap p_pool p_live p_next].
    set (m := set_fn (p_mem s) b _) in *. cbn [List.app] in *.
    assert (Pm : forall (l : list nat), NoDup (b :: e ++ l) -> NoDup (e ++ b :: l)).
    { intros l Hn. apply (Permutation.Permutation_NoDup (Permutation.Permutation_middle e l b)). exact Hn. }
    constructor; cbn [p_mem p_heap p_pool p_live p_next map snd fst]; try apply I1.
    + intros h x L H. apply (pi_apart _ _ I1 h x L). cbn [p_pool List.app]. apply in_app_or in H as [H|[H|H]].
      * right. apply in_or_app. now left.
      * now left.
      * right. apply in_or_app. now right.
    + apply Pm. apply I1.
    + pose proof (pi_heap _ _ I1) as F. cbn [p_heap p_pool List.app] in F. inversion F as [|? ? Hb Fl]. subst.
      apply Forall_app in Fl as (F1 & F2). apply Forall_app. split; [exact F1|]. constructor; assumption.
    + constructor; [|apply I1]. cbn [snd fst]. unfold m. now rewrite set_eq, Md, <- Ld.
    + intros b' d' M L Ne. destruct (Nat.eq_dec b' b) as [->|Nb'].
      * unfold m in M. rewrite set_eq, Md in M. cbn [option_map] in M. injection M as <-. now rewrite zeros_length.
      * apply (pi_wiped _ _ I1 b' d' M L). intros [Z|H]; [now symmetry in Z|now apply Ne].
  - apply (same_mem s b _ e I).
Qed.

Lemma pop_ok t n l : match pop t n l with
  | None => True
  | Some (b, l') => exists l1 l2, l = l1 ++ (t, n, b) :: l2 /\ l' = l1 ++ l2
  end.
Proof.
  induction l as [|((t', n'), b) l IH]; cbn [pop]; [exact I|].
  destruct (Nat.eqb_spec t t') as [<-|Nt]; destruct (Nat.eqb_spec n n') as [<-|Nn]; cbn [andb].
  - exists [], l. split; reflexivity.
  - destruct (pop t n l) as [(b', l')|]; [|exact I]. destruct IH as (l1 & l2 & -> & ->). exists ((t, n', b) :: l1), l2. split; reflexivity.
  - destruct (pop t n l) as [(b', l')|]; [|exact I]. destruct IH as (l1 & l2 & -> & ->). exists ((t', n, b) :: l1), l2. split; reflexivity.
  - destruct (pop t n l) as [(b', l')|]; [|exact I]. destruct IH as (l1 & l2 & -> & ->). exists ((t', n', b) :: l1), l2. split; reflexivity.
Qed.

(** Taking entries out of a pool *)
Lemma pinv_pool s e e' l : pinv s e -> (forall x, In x l -> In x (p_pool s)) ->
  Permutation.Permutation (e ++ map snd (p_pool s)) (e' ++ map snd l) -> (forall b, In b e -> In b e') ->
  pinv {| p_mem := p_mem s; p_heap := p_heap s; p_pool := l; p_live := p_live s; p_next := p_next s |} e'.
Proof.
  intros I Sub Pm Se. constructor; cbn [p_mem p_heap p_pool p_live p_next]; try apply I.
  - intros h x L H. apply (pi_apart _ _ I h x L). apply (Permutation.Permutation_in _ (Permutation.Permutation_sym Pm) H).
  - apply (Permutation.Permutation_NoDup Pm). apply I.
  - pose proof (pi_heap _ _ I) as F. rewrite Forall_forall in *. intros b Hb. apply F.
    apply (Permutation.Permutation_in _ (Permutation.Permutation_sym Pm) Hb).
  - pose proof (pi_pool _ _ I) as F. rewrite Forall_forall in *. intros x Hx. apply F. now apply Sub.
  - intros b d M L Ne. apply (pi_wiped _ _ I b d M L). intros H. apply Ne. now apply Se.
Qed.

Lemma zero_ok w n s s' r : pinv s [] -> secret_zero w n s = (s', r) ->
  exists b, r = Some {| s_size := n; s_block := b |} /\ pinv s' [b] /\ p_mem s' b = Some (zeros n) /\ same s s'.
Proof.
  intros I Z. unfold secret_zero in Z. destruct (at_pool w).
  - unfold pool_take in Z. pose proof (pop_ok (at_thread w) n (p_pool s)) as Po.
    destruct (pop (at_thread w) n (p_pool s)) as [(b, l)|].
    + destruct Po as (l1 & l2 & Ep & ->).
      assert (Mb : p_mem s b = Some (zeros n)).
      { pose proof (pi_pool _ _ I) as F. rewrite Forall_forall in F. apply (F (at_thread w, n, b)). rewrite Ep.
        apply in_or_app. right. now left. }
      rewrite Mb, zeros_length, Nat.eqb_refl in Z. cbn [option_map] in Z. injection Z as <- <-. exists b.
      split; [reflexivity|]. split; [|split; [exact Mb|repeat split]].
      apply (pinv_pool s [] [b] (l1 ++ l2) I).
      * intros x Hx. rewrite Ep. apply in_app_or in Hx as [Hx|Hx]; apply in_or_app; [now left|right; now right].
      * cbn [List.app]. rewrite Ep, !map_app. cbn [map snd]. apply Permutation.Permutation_sym, Permutation.Permutation_middle.
      * intros b' [].
    + destruct (box_new (at_hint w) n s) as [s1 b] eqn:B. injection Z as <- <-. exists b. split; [reflexivity|].
      exact (box_new_ok _ _ _ _ _ _ I B).
  - destruct (box_new (at_hint w) n s) as [s1 b] eqn:B. injection Z as <- <-. exists b. split; [reflexivity|].
    exact (box_new_ok _ _ _ _ _ _ I B).
Qed.

Lemma drop_ok w x s e d : pinv s (s_block x :: e) -> p_mem s (s_block x) = Some d -> length d = s_size x ->
  pinv (secret_drop w x s) e /\ same s (secret_drop w x s).
Proof.
  intros I M L. unfold secret_drop. destruct (at_pool w); [now apply pool_release_ok with d|now apply box_drop_ok].
Qed.

Lemma drop_boxes_ok l : forall s, pinv s l -> pinv (drop_boxes l s) [] /\ same s (drop_boxes l s).
Proof.
  induction l as [|b l IH]; intros s I; cbn [drop_boxes]; [split; [exact I|apply same_refl]|].
  destruct (box_drop_ok b s l I) as (I1 & S1). destruct (IH _ I1) as (I2 & S2). split; [exact I2|]. now apply same_trans with (box_drop b s).
Qed.

Lemma filter_split {A} (f : A -> bool) l : Permutation.Permutation l (filter f l ++ filter (fun x => negb (f x)) l).
Proof.
  induction l as [|x l IH]; cbn [filter List.app]; [constructor|]. destruct (f x); cbn [negb].
  - cbn [List.app]. now constructor.
  - eapply Permutation.Permutation_trans; [apply Permutation.perm_skip, IH|]. apply Permutation.Permutation_middle.
Qed.
Lemma thread_end_ok t s : pinv s [] -> pinv (thread_end t s) [] /\ same s (thread_end t s).
Proof.
  intros I. unfold thread_end.
  set (own := filter _ (p_pool s)). set (rest := filter (fun e => negb _) (p_pool s)).
  assert (I1 : pinv {| p_mem := p_mem s; p_heap := p_heap s; p_pool := rest; p_live := p_live s; p_next := p_next s |} (map snd own)).
  { apply (pinv_pool s [] (map snd own) rest I).
    - intros x Hx. apply filter_In in Hx. tauto.
    - cbn [List.app]. rewrite <- map_app. apply Permutation.Permutation_map. apply filter_split.
    - intros b []. }
  destruct (drop_boxes_ok _ _ I1) as (I2 & S2). split; [exact I2|]. exact S2.
Qed.

Lemma bind_ok x s d : pinv s [s_block x] -> p_mem s (s_block x) = Some d -> length d = s_size x ->
  pinv (fst (bind_secret x s)) [].
Proof.
  intros I M L. unfold bind_secret. cbn [fst]. pose proof (pi_dup _ _ I) as D. cbn [List.app] in D.
  inversion D as [|? ? Nb Dl]. subst. pose proof (pi_heap _ _ I) as F. cbn [List.app] in F. inversion F as [|? ? Hb Fl]. subst.
  constructor; cbn [p_mem p_heap p_pool p_live p_next List.app]; try assumption; try apply I.
  - intros h y. unfold set_fn. destruct (Nat.eqb_spec h (p_next s)) as [->|N].
    + intros Z. injection Z as <-. split; [lia|]. split; [exact Hb|]. exists d. auto.
    + intros Hy. destruct (pi_live _ _ I h y Hy) as (A & B & C). split; [lia|]. auto.
  - intros h h' y y'. unfold set_fn. destruct (Nat.eqb_spec h (p_next s)) as [->|N]; destruct (Nat.eqb_spec h' (p_next s)) as [->|N']; auto.
    + intros Z Hy E. injection Z as <-. exfalso. apply (pi_apart _ _ I h' y' Hy). rewrite <- E. now left.
    + intros Hy Z E. injection Z as <-. exfalso. apply (pi_apart _ _ I h y Hy). rewrite E. now left.
    + apply I.
  - intros h y. unfold set_fn. destruct (Nat.eqb_spec h (p_next s)) as [->|N].
    + intros Z. injection Z as <-. exact Nb.
    + intros Hy H. apply (pi_apart _ _ I h y Hy). now right.
  - intros b d' Mb Lv _. apply (pi_wiped _ _ I b d' Mb).
    + intros h y Hy. apply (Lv h y). unfold set_fn. destruct (Nat.eqb_spec h (p_next s)) as [->|N]; [|exact Hy].
      destruct (pi_live _ _ I _ y Hy). lia.
    + intros [Z|[]]. apply (Lv (p_next s) x); [apply set_eq|exact Z].
Qed.

Lemma unbind_ok h x s : pinv s [] -> p_live s h = Some x ->
  pinv {| p_mem := p_mem s; p_heap := p_heap s; p_pool := p_pool s; p_live := set_fn (p_live s) h None; p_next := p_next s |} [s_block x].
Proof.
  intros I L. destruct (pi_live _ _ I h x L) as (A & B & C). pose proof (pi_apart _ _ I h x L) as Na.
  constructor; cbn [p_mem p_heap p_pool p_live p_next List.app] in *; try apply I.
  - intros h' y. unfold set_fn. destruct (Nat.eqb h' h); [discriminate|]. apply I.
  - intros h1 h2 y1 y2. unfold set_fn. destruct (Nat.eqb h1 h); [discriminate|]. destruct (Nat.eqb h2 h); [discriminate|]. apply I.
  - intros h' y. unfold set_fn. destruct (Nat.eqb_spec h' h) as [|N]; [discriminate|]. intros Hy [Z|H].
    + apply N. symmetry. now apply (pi_inj _ _ I h h' x y).
    + now apply (pi_apart _ _ I h' y Hy).
  - constructor; [exact Na|apply I].
  - constructor; [exact B|apply I].
  - intros b d Mb Lv Ne. apply (pi_wiped _ _ I b d Mb); [|intros []]. intros h' y Hy.
    destruct (Nat.eq_dec h' h) as [->|N].
    + assert (y = x) as -> by congruence. intros Z. apply Ne. now left.
    + apply (Lv h' y). now rewrite set_neq.
Qed.

(** * C41 *)

(** The state agrees with the ideal secrets. *)
Definition agrees (s : pool_state) (v : ideal) : Prop :=
  p_next s = v_next v /\ forall h, v_val v h = option_map (fun x => contents x s) (p_live s h).

Lemma agrees_same s s' v : agrees s v -> same s s' -> agrees s' v.
Proof.
  intros (A & B) (S1 & S2 & S3). split; [congruence|]. intros h. rewrite B, S1. destruct (p_live s h) as [x|] eqn:L; [|reflexivity].
  cbn [option_map]. unfold contents. now rewrite (S3 h x L).
Qed.
Lemma agrees_bind s x d v : agrees s v -> p_mem s (s_block x) = Some d ->
  agrees (fst (bind_secret x s)) (fst (fresh d v)) /\ snd (fresh d v) = RNew (snd (bind_secret x s)).
Proof.
  intros (A & B) M. cbn [fst snd bind_secret fresh]. split; [split; cbn [p_next v_next p_live v_val]; [now rewrite A|]|now rewrite A].
  intros h. unfold set_fn. rewrite A. destruct (Nat.eqb_spec h (v_next v)) as [->|N].
  - cbn [option_map]. unfold contents. cbn [p_mem]. now rewrite M.
  - rewrite B. reflexivity.
Qed.

(** A change to the storage of one secret. *)
Lemma write_ok h x s v d : pinv s [] -> agrees s v -> p_live s h = Some x -> length d = s_size x ->
  pinv (store (s_block x) d s) [] /\ agrees (store (s_block x) d s) (put h (Some d) v).
Proof.
  intros I (A & B) L Ld. destruct (pi_live _ _ I h x L) as (_ & Hb & _).
  assert (Ne : forall h' y, p_live s h' = Some y -> h' <> h -> s_block y <> s_block x).
  { intros h' y Ly N Z. apply N. now apply (pi_inj _ _ I h' h y x). }
  split.
  - constructor; cbn [store p_mem p_heap p_pool p_live p_next]; try apply I.
    + intros h' y Ly. destruct (pi_live _ _ I h' y Ly) as (A1 & B1 & C1). split; [exact A1|]. split; [exact B1|].
      destruct (Nat.eq_dec h' h) as [->|N].
      * assert (y = x) as -> by congruence. rewrite set_eq. exists d. auto.
      * rewrite set_neq by (now apply Ne with h'). exact C1.
    + pose proof (pi_pool _ _ I) as F. rewrite Forall_forall in *. intros y Hy. rewrite set_neq; [now apply F|].
      intros Z. apply (pi_apart _ _ I h x L). rewrite <- Z. apply in_or_app. right. now apply in_map.
    + intros b d' M Lv _. destruct (Nat.eq_dec b (s_block x)) as [->|N]; [now destruct (Lv h x L)|].
      rewrite set_neq in M by exact N. now apply (pi_wiped _ _ I b d' M Lv).
  - split; [exact A|]. intros h'. cbn [put v_val store p_live]. destruct (Nat.eqb_spec h' h) as [->|N].
    + rewrite L. cbn [option_map]. unfold contents. cbn [store p_mem]. now rewrite set_eq.
    + rewrite B. destruct (p_live s h') as [y|] eqn:Ly; [|reflexivity]. cbn [option_map]. unfold contents. cbn [p_mem store].
      now rewrite set_neq by (now apply Ne with h').
Qed.

Lemma contents_ok s h x : pinv s [] -> p_live s h = Some x ->
  p_mem s (s_block x) = Some (contents x s) /\ length (contents x s) = s_size x.
Proof.
  intros I L. destruct (pi_live _ _ I h x L) as (_ & _ & d & M & Ld). unfold contents. rewrite M. auto.
Qed.
Lemma drawn_length n draw : length (drawn n draw) = n.
Proof. unfold drawn. rewrite firstn_length, app_length, zeros_length. lia. Qed.

Lemma from_slice_ok w w' n d s v s' r : pinv s [] -> agrees s v -> secret_from_slice w w' n d s = (s', r) ->
  pinv s' [] /\ agrees s' (fst (if Nat.eqb (length d) n then fresh d v else (v, RPanic))) /\
  r = snd (if Nat.eqb (length d) n then fresh d v else (v, RPanic)).
Proof.
  intros I A F. unfold secret_from_slice in F. destruct (secret_zero w n s) as [s1 r1] eqn:Z.
  destruct (zero_ok _ _ _ _ _ I Z) as (b & -> & I1 & M1 & S1). cbn [s_block] in F.
  destruct (Nat.eqb_spec (length d) n) as [Ed|Nd].
  - pose proof (pinv_mem s1 b (Some d) [] I1) as I2. fold (store b d s1) in I2.
    assert (M2 : p_mem (store b d s1) b = Some d) by (cbn [store p_mem]; apply set_eq).
    set (x := {| s_size := n; s_block := b |}) in *.
    pose proof (bind_ok x (store b d s1) d I2 M2 Ed) as I3.
    assert (A2 : agrees (store b d s1) v).
    { eapply agrees_same; [exact A|]. eapply same_trans; [exact S1|]. exact (same_mem s1 b (Some d) [] I1). }
    destruct (agrees_bind (store b d s1) x d v A2 M2) as (A3 & R).
    destruct (bind_secret x (store b d s1)) as [s2 h]. injection F as <- <-. auto.
  - injection F as <- <-. cbn [fst snd].
    destruct (drop_ok w' {| s_size := n; s_block := b |} s1 [] (zeros n) I1 M1) as (I2 & S2); [apply zeros_length|].
    split; [exact I2|]. split; [|reflexivity]. eapply agrees_same; [|exact S2]. now apply agrees_same with s.
Qed.

Lemma pool_step_ok o s v s' r : pinv s [] -> agrees s v -> pool_step o s = (s', r) ->
  pinv s' [] /\ agrees s' (fst (ideal_step o v)) /\ r = snd (ideal_step o v).
Proof.
  intros I A St.
  assert (Va : forall h, v_val v h = option_map (fun x => contents x s) (p_live s h)) by apply A.
  destruct o as [w n|w w' n d|w n draw|h off d|h|h draw|w w' h|w h|t]; cbn [pool_step ideal_step] in *.
  - destruct (secret_zero w n s) as [s1 r1] eqn:Z. destruct (zero_ok _ _ _ _ _ I Z) as (b & -> & I1 & M1 & S1).
    set (x := {| s_size := n; s_block := b |}) in *.
    pose proof (bind_ok x s1 (zeros n) I1 M1 (zeros_length n)) as I3.
    destruct (agrees_bind s1 x (zeros n) v (agrees_same _ _ _ A S1) M1) as (A3 & R).
    destruct (bind_secret x s1) as [s2 h]. injection St as <- <-. auto.
  - exact (from_slice_ok _ _ _ _ _ _ _ _ I A St).
  - destruct (secret_zero w n s) as [s1 r1] eqn:Z. destruct (zero_ok _ _ _ _ _ I Z) as (b & -> & I1 & M1 & S1).
    set (x := {| s_size := n; s_block := b |}) in *. unfold secret_randomize in St. change (s_block x) with b in St. change (s_size x) with n in St.
    pose proof (pinv_mem s1 b (option_map (fun d => zeros (length d)) (p_mem s1 b)) [] I1) as I2. fold (wipe b s1) in I2.
    pose proof (pinv_mem _ b (Some (drawn n draw)) [] I2) as I3. fold (store b (drawn n draw) (wipe b s1)) in I3.
    set (s2 := store b (drawn n draw) (wipe b s1)) in *.
    assert (M2 : p_mem s2 b = Some (drawn n draw)) by (cbn [s2 store p_mem]; apply set_eq).
    assert (S2 : same s s2).
    { eapply same_trans; [exact S1|]. eapply same_trans; [exact (same_mem s1 b (option_map (fun d => zeros (length d)) (p_mem s1 b)) [] I1)|].
      exact (same_mem (wipe b s1) b (Some (drawn n draw)) [] I2). }
    pose proof (bind_ok x s2 _ I3 M2 (drawn_length n draw)) as I4.
    destruct (agrees_bind s2 x _ v (agrees_same _ _ _ A S2) M2) as (A3 & R).
    destruct (bind_secret x s2) as [s3 h]. injection St as <- <-. auto.
  - rewrite Va. destruct (p_live s h) as [x|] eqn:L; [|injection St as <- <-; auto]. cbn [option_map].
    destruct (contents_ok s h x I L) as (M & Lc). unfold secret_write in St. rewrite Lc.
    destruct (Nat.leb_spec (off + length d) (s_size x)) as [Hl|Hl]; injection St as <- <-; [|auto].
    destruct (write_ok h x s v (splice off d (contents x s)) I A L) as (I1 & A1); [rewrite splice_length; lia|].
    split; [exact I1|]. split; [exact A1|reflexivity].
  - rewrite Va. destruct (p_live s h) as [x|] eqn:L; [|injection St as <- <-; auto]. cbn [option_map].
    destruct (contents_ok s h x I L) as (M & Lc). injection St as <- <-.
    assert (W : wipe (s_block x) s = store (s_block x) (zeros (length (contents x s))) s) by (unfold wipe, store; now rewrite M).
    rewrite W. destruct (write_ok h x s v (zeros (length (contents x s))) I A L) as (I1 & A1); [now rewrite zeros_length|].
    split; [exact I1|]. split; [exact A1|reflexivity].
  - rewrite Va. destruct (p_live s h) as [x|] eqn:L; [|injection St as <- <-; auto]. cbn [option_map].
    destruct (contents_ok s h x I L) as (M & Lc). injection St as <- <-. unfold secret_randomize.
    assert (W : wipe (s_block x) s = store (s_block x) (zeros (length (contents x s))) s) by (unfold wipe, store; now rewrite M).
    rewrite W. destruct (write_ok h x s v (zeros (length (contents x s))) I A L) as (I1 & A1); [now rewrite zeros_length|].
    destruct (write_ok h x _ _ (drawn (s_size x) draw) I1 A1 L) as (I2 & A2); [apply drawn_length|].
    split; [exact I2|]. split; [|reflexivity]. cbn [fst]. unfold drawn in A2 at 2. rewrite <- Lc in A2 at 2. destruct A2 as (A21 & A22). split; [exact A21|].
    intros i. rewrite <- A22. cbn [put v_val]. rewrite !Lc. destruct (Nat.eqb i h); reflexivity.
  - rewrite Va. destruct (p_live s h) as [x|] eqn:L; [|injection St as <- <-; auto]. cbn [option_map].
    destruct (contents_ok s h x I L) as (M & Lc).
    destruct (from_slice_ok _ _ _ _ _ _ _ _ I A St) as (I1 & A1 & R). rewrite Lc, Nat.eqb_refl in A1, R. auto.
  - rewrite Va. destruct (p_live s h) as [x|] eqn:L; [|injection St as <- <-; auto]. cbn [option_map].
    destruct (contents_ok s h x I L) as (M & Lc).
    set (s0 := {| p_mem := p_mem s; p_heap := p_heap s; p_pool := p_pool s; p_live := set_fn (p_live s) h None; p_next := p_next s |}).
    pose proof (unbind_ok h x s I L : pinv s0 _) as I0.
    assert (A0 : agrees s0 (put h None v)).
    { split; [apply A|]. intros i. cbn [put v_val s0 p_live]. unfold set_fn. destruct (Nat.eqb i h); [reflexivity|]. apply Va. }
    destruct (drop_ok w x s0 [] _ I0 M Lc) as (I1 & S1).
    assert (s' = secret_drop w x s0 /\ r = RDone) as (-> & ->).
    { injection St as <- <-. split; [|reflexivity]. unfold secret_drop. destruct (at_pool w); reflexivity. }
    split; [exact I1|]. split; [|reflexivity]. now apply agrees_same with s0.
  - injection St as <- <-. destruct (thread_end_ok t s I) as (I1 & S1). split; [exact I1|]. split; [|reflexivity]. now apply agrees_same with s.
Qed.

Lemma pool_steps_ok ops : forall s v s' rs, pinv s [] -> agrees s v -> pool_steps ops s = (s', rs) ->
  pinv s' [] /\ agrees s' (fst (ideal_steps ops v)) /\ rs = snd (ideal_steps ops v).
Proof.
  induction ops as [|o ops IH]; intros s v s' rs I A B; cbn [pool_steps ideal_steps] in *.
  - injection B as <- <-. auto.
  - destruct (pool_step o s) as [s1 r] eqn:St. destruct (pool_steps ops s1) as [s2 rs2] eqn:Bs. injection B as <- <-.
    destruct (pool_step_ok _ _ _ _ _ I A St) as (I1 & A1 & R1). destruct (ideal_step o v) as [v1 r1']. cbn [fst snd] in *.
    destruct (IH _ _ _ _ I1 A1 Bs) as (I2 & A2 & R2). destruct (ideal_steps ops v1) as [v2 rs']. cbn [fst snd] in *. subst. auto.
Qed.
Lemma agrees_init : agrees pool_init ideal_init.
Proof. split; reflexivity. Qed.

(** Whatever happened before, on whatever threads, whichever pools were available and however memory was reused, every secret has
    exactly the contents it would have if it were a value of its own, and every call has the result it would have
    then. *)
Theorem C41_contents : forall ops s rs, pool_steps ops pool_init = (s, rs) ->
  rs = snd (ideal_steps ops ideal_init) /\
  forall h, option_map (fun x => contents x s) (p_live s h) = v_val (fst (ideal_steps ops ideal_init)) h.
Proof.
  intros ops s rs B. destruct (pool_steps_ok _ _ _ _ _ pinv_init agrees_init B) as (_ & (_ & A) & R).
  split; [exact R|]. intros h. now rewrite A.
Qed.
Print Assumptions C41_contents.

(** In particular a secret obtained from [zero] contains only zeros. *)
Theorem C41_zero : forall ops s rs w n s' r, pool_steps ops pool_init = (s, rs) -> pool_step (PZero w n) s = (s', r) ->
  exists x, r = RNew (p_next s) /\ p_live s' (p_next s) = Some x /\ s_size x = n /\ contents x s' = zeros n.
Proof.
  intros ops s rs w n s' r B St. destruct (pool_steps_ok _ _ _ _ _ pinv_init agrees_init B) as (I & _).
  cbn [pool_step] in St. destruct (secret_zero w n s) as [s1 r1] eqn:Z.
  destruct (zero_ok _ _ _ _ _ I Z) as (b & -> & I1 & M1 & S1 & S2 & S3). unfold bind_secret in St. injection St as <- <-.
  eexists. rewrite S2. split; [reflexivity|]. cbn [p_live]. rewrite set_eq. split; [reflexivity|]. split; [reflexivity|].
  unfold contents. cbn [s_block p_mem]. now rewrite M1.
Qed.
Print Assumptions C41_zero.

(** No two secrets share storage, and a block that once held a secret and does no more contains only zeros: when it is
    in a pool, when it went back to the allocator, and after the end of a thread. *)
Theorem C41_storage : forall ops s rs, pool_steps ops pool_init = (s, rs) ->
  (forall h h' x x', p_live s h = Some x -> p_live s h' = Some x' -> h <> h' -> s_block x <> s_block x') /\
  (forall b d, p_mem s b = Some d -> (forall h x, p_live s h = Some x -> s_block x <> b) -> d = zeros (length d)).
Proof.
  intros ops s rs B. destruct (pool_steps_ok _ _ _ _ _ pinv_init agrees_init B) as (I & _). split.
  - intros h h' x x' L L' N Z. apply N. now apply (pi_inj _ _ I h h' x x').
  - intros b d M Lv. apply (pi_wiped _ _ I b d M Lv). intros [].
Qed.
Print Assumptions C41_storage.

(** The only panics are those of wrong sizes. *)
Theorem C41_panics : forall ops o s rs, pool_steps ops pool_init = (s, rs) -> snd (pool_step o s) = RPanic ->
  match o with
  | PFromSlice _ _ n d => length d <> n
  | PWrite h off d => exists x, p_live s h = Some x /\ s_size x < off + length d
  | _ => False
  end.
Proof.
  intros ops o s rs B P. destruct (pool_steps_ok _ _ _ _ _ pinv_init agrees_init B) as (I & A & _).
  destruct (pool_step o s) as [s' r] eqn:St. destruct (pool_step_ok _ _ _ _ _ I A St) as (_ & _ & R). cbn [snd] in P.
  rewrite P in R. destruct A as (_ & Va).
  destruct o as [w n|w w' n d|w n draw|h off d|h|h draw|w w' h|w h|t]; cbn [ideal_step fresh snd] in R; try discriminate R.
  - destruct (Nat.eqb_spec (length d) n); [discriminate R|assumption].
  - rewrite Va in R. destruct (p_live s h) as [x|] eqn:L; [|discriminate R]. cbn [option_map] in R.
    destruct (contents_ok s h x I L) as (_ & Lc). rewrite Lc in R. destruct (Nat.leb_spec (off + length d) (s_size x)); [discriminate R|].
    exists x. auto.
  - rewrite Va in R. destruct (p_live s h); discriminate R.
  - rewrite Va in R. destruct (p_live s h); discriminate R.
  - rewrite Va in R. destruct (p_live s h); discriminate R.
  - rewrite Va in R. destruct (p_live s h); discriminate R.
Qed.
Print Assumptions C41_panics.

(** * A history in which memory is reused *)

Definition here : place := {| at_thread := 0; at_pool := true; at_hint := 7 |}.
Definition there : place := {| at_thread := 1; at_pool := true; at_hint := 7 |}.
Definition dying : place := {| at_thread := 1; at_pool := false; at_hint := 7 |}.
Definition history : list pool_op :=
  [PFromSlice here here 3 [x01; x02; x03]; PDrop here 0; PZero here 3; PWrite 1 1 [x09]; PClone there there 1;
   PDrop dying 2; PThreadEnd 1; PFromSlice here here 2 [x05]; PRandom dying 2 [x06; x08; x0a]].
Example C41_nonvacuous : exists s rs, pool_steps history pool_init = (s, rs) /\
  rs = [RNew 0; RDone; RNew 1; RDone; RNew 2; RDone; RDone; RPanic; RNew 3] /\
  option_map s_block (p_live s 1) = Some 7 /\ option_map (fun x => contents x s) (p_live s 1) = Some [x00; x09; x00] /\
  option_map (fun x => contents x s) (p_live s 3) = Some [x06; x08].
Proof. do 2 eexists. split; [vm_compute; reflexivity|]. vm_compute. auto. Qed.
