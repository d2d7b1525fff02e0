(** C74: cleanup jobs *)
From Verif Require Import Base Janitor.

Lemma split_nth {A} (l : list A) i x : nth_error l i = Some x -> exists l1 l2, l = l1 ++ x :: l2 /\ length l1 = i.
Proof. apply nth_error_split. Qed.
Lemma set_nth_at {A} (l1 l2 : list A) x y : set_nth (length l1) y (l1 ++ x :: l2) = l1 ++ y :: l2.
Proof.
  unfold set_nth. rewrite firstn_app, firstn_all, Nat.sub_diag. cbn [firstn]. rewrite app_nil_r. f_equal. f_equal.
  replace (S (length l1)) with (length l1 + 1)%nat by lia. rewrite skipn_app, skipn_all2 by lia. cbn [List.app].
  replace (length l1 + 1 - length l1)%nat with 1%nat by lia. reflexivity.
Qed.
Lemma drop_nth_at {A} (l1 l2 : list A) x : drop_nth (length l1) (l1 ++ x :: l2) = l1 ++ l2.
Proof.
  unfold drop_nth. rewrite firstn_app, firstn_all, Nat.sub_diag. cbn [firstn]. rewrite app_nil_r. f_equal.
  replace (S (length l1)) with (length l1 + 1)%nat by lia. rewrite skipn_app, skipn_all2 by lia. cbn [List.app].
  replace (length l1 + 1 - length l1)%nat with 1%nat by lia. reflexivity.
Qed.

(** The tasks that have to do with the queue *)
Definition is_recv (t : jtask) : bool := match t with TRecv | TEnded (VReceived _) | TEnded VClosed => true | _ => false end.
Definition recvs (l : list jtask) : nat := length (filter is_recv l).
Lemma recvs_app l1 t l2 : recvs (l1 ++ t :: l2) = (recvs (l1 ++ l2) + if is_recv t then 1 else 0)%nat.
Proof. unfold recvs. rewrite !filter_app, !app_length. cbn [filter]. destruct (is_recv t); cbn [length]; lia. Qed.
Lemma recvs_snoc l t u : recvs (l ++ [t; u]) = (recvs l + (if is_recv t then 1 else 0) + if is_recv u then 1 else 0)%nat.
Proof. unfold recvs. rewrite filter_app, app_length. cbn [filter]. destruct (is_recv t), (is_recv u); cbn [length]; lia. Qed.

Definition bad (e : jevent) : bool := match e with VReturnedError | VJoinError => true | _ => false end.
Definition failed (s : jan) : Prop := exists j, In j (j_taken s) /\ (nth_error (j_jobs s) j = Some (Some JErr) \/ nth_error (j_jobs s) j = Some (Some JPanic)).
(** Where the agent has a job *)
Definition tracked (s : jan) (j : nat) : Prop :=
  In j (j_queue s) \/ In (TEnded (VReceived j)) (j_tasks s) \/ In (TWait j) (j_tasks s).

Record jinv (s : jan) : Prop := {
  i_taken : j_agent s = None -> j_taken s = seq 0 (length (j_jobs s));
  i_under : forall j, In j (j_taken s) -> (j < length (j_jobs s))%nat;
  i_recv : j_agent s = None -> recvs (j_tasks s) = if j_closed s then 0%nat else 1%nat;
  i_closed : j_closed s = true \/ In (TEnded VClosed) (j_tasks s) -> j_tx s = false /\ (j_agent s = None -> j_queue s = []);
  i_jobs : j_agent s = None -> forall j, In j (j_taken s) -> tracked s j \/ nth_error (j_jobs s) j = Some (Some JOk) \/ exists e, In (TEnded e) (j_tasks s) /\ bad e = true;
  i_tracked : j_agent s = None -> forall j, tracked s j -> In j (j_taken s);
  i_bad : forall e, In (TEnded e) (j_tasks s) -> bad e = true -> failed s;
  i_ok : j_agent s = Some (Ok tt) -> j_tx s = false /\ j_taken s = seq 0 (length (j_jobs s)) /\ forall j, In j (j_taken s) -> nth_error (j_jobs s) j = Some (Some JOk);
  i_err : j_agent s = Some (Err tt) -> failed s;
  i_panic : j_agent s <> Some Panic
}.

Lemma jinv0 : jinv jan0.
Proof.
  constructor; cbn [jan0 j_jobs j_taken j_queue j_tx j_tasks j_closed j_agent]; try discriminate; auto.
  - contradiction.
  - intros [H|[H|[]]]; discriminate.
  - intros _ j [].
  - intros _ j [[]|[[H|[]]|[H|[]]]]; discriminate.
  - intros e [H|[]]; discriminate.
Qed.

Lemma nth_snoc {A} (l : list A) x j y : nth_error l j = Some y -> nth_error (l ++ [x]) j = Some y.
Proof. intros H. rewrite nth_error_app1; [exact H|]. apply nth_error_Some. congruence. Qed.
Lemma nth_set {A} (l : list (option A)) i (x : A) j y : nth_error l i = Some None -> nth_error l j = Some (Some y) -> nth_error (set_nth i (Some x) l) j = Some (Some y).
Proof.
  intros Hi Hj. destruct (split_nth _ _ _ Hi) as (l1 & l2 & -> & <-). rewrite set_nth_at.
  destruct (Nat.lt_ge_cases j (length l1)) as [L|L].
  - rewrite nth_error_app1 in * by exact L. exact Hj.
  - rewrite nth_error_app2 in * by exact L. destruct (j - length l1)%nat; [discriminate|exact Hj].
Qed.
Lemma set_length {A} (l : list A) i x y : nth_error l i = Some y -> length (set_nth i x l) = length l.
Proof. intros H. destruct (split_nth _ _ _ H) as (l1 & l2 & -> & <-). rewrite set_nth_at, !app_length. reflexivity. Qed.
Lemma in_swap {A} (l1 l2 : list A) x y t : In t (l1 ++ x :: l2) -> t <> x -> In t (l1 ++ y :: l2).
Proof. intros H N. apply in_or_app. apply in_app_or in H as [H|[H|H]]; [now left|congruence|right; now right]. Qed.
Lemma in_gone {A} (l1 l2 : list A) x t : In t (l1 ++ x :: l2) -> t <> x -> In t (l1 ++ l2).
Proof. intros H N. apply in_or_app. apply in_app_or in H as [H|[H|H]]; [now left|congruence|now right]. Qed.
Lemma in_more {A} (l1 l2 : list A) x t : In t (l1 ++ l2) -> In t (l1 ++ x :: l2).
Proof. intros H. apply in_or_app. apply in_app_or in H as [H|H]; [now left|right; now right]. Qed.
Lemma recvs_pos l t : In t l -> is_recv t = true -> recvs l <> 0%nat.
Proof. intros I' R. unfold recvs. intros Z. apply length_zero_iff_nil in Z. assert (X : In t (filter is_recv l)) by now apply filter_In. rewrite Z in X. exact X. Qed.

Lemma jinv_spawn late s : jinv s -> j_tx s = true -> jinv (fst (jspawn late s)).
Proof.
  intros I T. assert (Sn : forall n, seq 0 (n + 1) = seq 0 n ++ [n]) by (intros n; now rewrite seq_app).
  assert (Nc : ~ (j_closed s = true \/ In (TEnded VClosed) (j_tasks s))) by (intros H; destruct (i_closed _ I H); congruence).
  assert (No : j_agent s <> Some (Ok tt)) by (intros H; destruct (i_ok _ I H); congruence).
  assert (Fl : forall s', (forall j, In j (j_taken s) -> In j (j_taken s')) -> j_jobs s' = j_jobs s ++ [None] -> failed s -> failed s').
  { intros s' Ht Ej (j & Ij & H). exists j. rewrite Ej. split; [auto|]. destruct H as [H|H]; [left|right]; now apply nth_snoc. }
  unfold jspawn. destruct (j_agent s) as [r|] eqn:Ea.
  - destruct late; cbn [fst]; constructor; cbn [j_jobs j_taken j_queue j_tx j_tasks j_closed j_agent]; rewrite ?Ea; try discriminate; try contradiction; try (intros H; contradiction).
    + intros j Ij. rewrite app_length. cbn [length]. apply in_app_or in Ij as [Ij|[<-|[]]]; [apply (i_under _ I) in Ij; lia|lia].
    + intros e Ie B. apply Fl; [cbn [j_taken]; intros; apply in_or_app; now left|reflexivity|exact (i_bad _ I e Ie B)].
    + intros H. apply Fl; [cbn [j_taken]; intros; apply in_or_app; now left|reflexivity|]. apply (i_err _ I). congruence.
    + intros H. apply (i_panic _ I). congruence.
    + intros j Ij. rewrite app_length. apply (i_under _ I) in Ij. lia.
    + intros e Ie B. apply Fl; [auto|reflexivity|exact (i_bad _ I e Ie B)].
    + intros H. apply Fl; [auto|reflexivity|]. apply (i_err _ I). congruence.
    + intros H. apply (i_panic _ I). congruence.
  - cbn [fst]; constructor; cbn [j_jobs j_taken j_queue j_tx j_tasks j_closed j_agent]; rewrite ?Ea; try discriminate; try (intros H; contradiction).
    + intros _. rewrite app_length. cbn [length]. now rewrite Sn, (i_taken _ I Ea).
    + intros j Ij. rewrite app_length. cbn [length]. apply in_app_or in Ij as [Ij|[<-|[]]]; [apply (i_under _ I) in Ij; lia|lia].
    + intros _. exact (i_recv _ I Ea).
    + intros _ j Ij. unfold tracked. cbn [j_queue j_tasks j_jobs]. apply in_app_or in Ij as [Ij|[<-|[]]].
      * destruct (i_jobs _ I Ea j Ij) as [[H|[H|H]]|[H|H]]; [left; left; apply in_or_app; now left|auto|auto|right; left; now apply nth_snoc|auto].
      * left. left. apply in_or_app. right. now left.
    + intros _ j H. unfold tracked in H. cbn [j_queue j_tasks] in H. apply in_or_app. destruct H as [H|H].
      * apply in_app_or in H as [H|H]; [left; apply (i_tracked _ I Ea); now left|now right].
      * left. apply (i_tracked _ I Ea). now right.
    + intros e Ie B. apply Fl; [cbn [j_taken]; intros; apply in_or_app; now left|reflexivity|exact (i_bad _ I e Ie B)].
Qed.
Lemma jinv_finish j r s : jinv s -> nth_error (j_jobs s) j = Some None ->
  jinv {| j_jobs := set_nth j (Some r) (j_jobs s); j_taken := j_taken s; j_queue := j_queue s; j_tx := j_tx s; j_tasks := j_tasks s; j_closed := j_closed s; j_agent := j_agent s |}.
Proof.
  intros I H. pose proof (set_length _ _ (Some r) _ H) as L.
  assert (Fl : failed s -> failed {| j_jobs := set_nth j (Some r) (j_jobs s); j_taken := j_taken s; j_queue := j_queue s; j_tx := j_tx s; j_tasks := j_tasks s; j_closed := j_closed s; j_agent := j_agent s |}).
  { intros (k & Ik & Hk). exists k. cbn [j_taken j_jobs]. split; [exact Ik|]. destruct Hk as [Hk|Hk]; [left|right]; now apply nth_set. }
  destruct I. constructor; cbn [j_jobs j_taken j_queue j_tx j_tasks j_closed j_agent]; rewrite ?L; auto.
  - intros Ea k Ik. unfold tracked. cbn [j_queue j_tasks j_jobs]. destruct (i_jobs0 Ea k Ik) as [X|[X|X]]; [now left|right; left; now apply nth_set|auto].
  - intros e Ie B. apply Fl. eauto.
  - intros Ea. destruct (i_ok0 Ea) as (A & B & C). split; [exact A|]. split; [exact B|]. intros k Ik. apply nth_set; auto.
Qed.
Lemma jinv_leave s : jinv s -> j_tx s = true ->
  jinv {| j_jobs := j_jobs s; j_taken := j_taken s; j_queue := j_queue s; j_tx := false; j_tasks := j_tasks s; j_closed := j_closed s; j_agent := j_agent s |}.
Proof.
  intros I T. destruct I. constructor; cbn [j_jobs j_taken j_queue j_tx j_tasks j_closed j_agent]; auto.
  - intros H. destruct (i_closed0 H). congruence.
  - intros Ea. destruct (i_ok0 Ea). congruence.
Qed.
Lemma jinv_work i s s' : jinv s -> j_agent s = None -> jwork i s = Some s' -> jinv s'.
Proof.
  intros I Ea H. unfold jwork in H. destruct (nth_error (j_tasks s) i) as [t|] eqn:En; [|discriminate].
  destruct (split_nth _ _ _ En) as (l1 & l2 & El & Li). subst i.
  (* a job that is waited for has ended *)
  assert (W : forall j e, t = TWait j -> s' = with_tasks s (l1 ++ TEnded e :: l2) -> is_recv (TEnded e) = false ->
     (bad e = true -> nth_error (j_jobs s) j = Some (Some JErr) \/ nth_error (j_jobs s) j = Some (Some JPanic)) ->
     (bad e = false -> nth_error (j_jobs s) j = Some (Some JOk)) -> jinv s').
  { intros j e -> -> Re Be Ok_. pose proof (i_recv _ I Ea) as Rc. rewrite El, recvs_app in Rc. cbn [is_recv] in Rc.
    assert (Tj : In j (j_taken s)) by (apply (i_tracked _ I Ea); right; right; rewrite El; apply in_or_app; right; now left).
    destruct I. constructor; cbn [with_tasks j_jobs j_taken j_queue j_tx j_tasks j_closed j_agent]; auto.
    - intros _. rewrite recvs_app, Re. exact Rc.
    - intros [X|X]; apply i_closed0; [now left|right]. rewrite El. apply (in_swap l1 l2 (TEnded e)); [exact X|]. intros Y. assert (e = VClosed) by congruence. subst e. discriminate Re.
    - intros _ k Ik. unfold tracked. cbn [with_tasks j_queue j_tasks j_jobs]. destruct (i_jobs0 Ea k Ik) as [[X|[X|X]]|[X|(e' & X & Be')]].
      + auto.
      + left. right. left. rewrite El in X. apply (in_swap _ _ _ _ _ X). discriminate.
      + rewrite El in X. destruct (Nat.eq_dec k j) as [->|Nk].
        * destruct (bad e) eqn:Eb; [right; right; exists e; split; [apply in_or_app; right; now left|exact Eb]|right; left; auto].
        * left. right. right. apply (in_swap _ _ _ _ _ X). congruence.
      + auto.
      + right. right. exists e'. split; [|exact Be']. rewrite El in X. apply (in_swap _ _ _ _ _ X). discriminate.
    - intros _ k X. apply (i_tracked0 Ea). unfold tracked in *. cbn [with_tasks j_queue j_tasks] in X. rewrite El. destruct X as [X|[X|X]]; [auto|right; left|right; right].
      + apply (in_swap _ _ _ _ _ X). intros Y. assert (e = VReceived k) by congruence. subst e. discriminate Re.
      + apply (in_swap _ _ _ _ _ X). discriminate.
    - intros e' X Be'. assert (F : failed s).
      { destruct (bad e) eqn:Eb; [exists j; auto|]. apply (i_bad0 e'); [|exact Be']. rewrite El. apply (in_swap _ _ _ _ _ X). congruence. }
      destruct F as (k & Hk). exists k. exact Hk. }
  destruct t as [|j|e]; [| |discriminate].
  - destruct (j_queue s) as [|j q] eqn:Eq.
    + destruct (j_tx s) eqn:Et; [discriminate|]. rewrite El, !set_nth_at in H.
      match type of H with Some ?x = _ => assert (X : x = s') by congruence end. rewrite <- X. clear X H s' W.
      pose proof (i_recv _ I Ea) as Rc. rewrite El, recvs_app in Rc. destruct I. constructor; cbn [with_tasks j_jobs j_taken j_queue j_tx j_tasks j_closed j_agent]; auto.
      * intros _. rewrite recvs_app. exact Rc.
      * intros _ k Ik. unfold tracked. cbn [with_tasks j_queue j_tasks j_jobs]. destruct (i_jobs0 Ea k Ik) as [[X|[X|X]]|[X|(e' & X & Be')]].
        -- auto.
        -- left. right. left. rewrite El in X. apply (in_swap _ _ _ _ _ X). discriminate.
        -- left. right. right. rewrite El in X. apply (in_swap _ _ _ _ _ X). discriminate.
        -- auto.
        -- right. right. exists e'. split; [|exact Be']. rewrite El in X. apply (in_swap _ _ _ _ _ X). discriminate.
      * intros _ k X. apply (i_tracked0 Ea). unfold tracked in *. cbn [with_tasks j_queue j_tasks] in X. rewrite El. destruct X as [X|[X|X]]; [auto|right; left|right; right].
        -- apply (in_swap _ _ _ _ _ X). discriminate.
        -- apply (in_swap _ _ _ _ _ X). discriminate.
      * intros e' X Be'. destruct (i_bad0 e') as (k & Hk); [|exact Be'|exists k; exact Hk]. rewrite El. apply (in_swap _ _ _ _ _ X). intros Y. assert (e' = VClosed) by congruence. subst e'. discriminate.
    + rewrite El, !set_nth_at in H. match type of H with Some ?x = _ => assert (X : x = s') by congruence end. rewrite <- X. clear X H s' W.
      pose proof (i_recv _ I Ea) as Rc. rewrite El, recvs_app in Rc. cbn [is_recv] in Rc.
      assert (Nc : ~ (j_closed s = true \/ In (TEnded VClosed) (j_tasks s))).
      { intros X. destruct (i_closed _ I X) as [_ Y]. specialize (Y Ea). congruence. }
      destruct I. constructor; cbn [with_tasks j_jobs j_taken j_queue j_tx j_tasks j_closed j_agent]; auto.
      * intros _. rewrite recvs_app. exact Rc.
      * intros X. exfalso. apply Nc. destruct X as [X|X]; [now left|right]. rewrite El. apply (in_swap _ _ _ _ _ X). discriminate.
      * intros _ k Ik. unfold tracked. cbn [with_tasks j_queue j_tasks j_jobs]. destruct (i_jobs0 Ea k Ik) as [[X|[X|X]]|[X|(e' & X & Be')]].
        -- rewrite Eq in X. destruct X as [<-|X]; [left; right; left; apply in_or_app; right; now left|auto].
        -- left. right. left. rewrite El in X. apply (in_swap _ _ _ _ _ X). discriminate.
        -- left. right. right. rewrite El in X. apply (in_swap _ _ _ _ _ X). discriminate.
        -- auto.
        -- right. right. exists e'. split; [|exact Be']. rewrite El in X. apply (in_swap _ _ _ _ _ X). discriminate.
      * intros _ k X. apply (i_tracked0 Ea). unfold tracked in *. cbn [with_tasks j_queue j_tasks] in X. rewrite El, Eq. destruct X as [X|[X|X]]; [left; now right| |right; right].
        -- destruct (Nat.eq_dec k j) as [->|Nk]; [left; now left|]. right. left. apply (in_swap _ _ _ _ _ X). congruence.
        -- apply (in_swap _ _ _ _ _ X). discriminate.
      * intros e' X Be'. destruct (i_bad0 e') as (k & Hk); [|exact Be'|exists k; exact Hk]. rewrite El. apply (in_swap _ _ _ _ _ X). intros Y. assert (e' = VReceived j) by congruence. subst e'. discriminate.
  - rewrite El, !set_nth_at in H. destruct (nth_error (j_jobs s) j) as [[r|]|] eqn:Ej; [|discriminate..]. destruct r.
    + apply (W j VSuccessful); [reflexivity|congruence|reflexivity|discriminate|auto].
    + apply (W j VReturnedError); [reflexivity|congruence|reflexivity|auto|discriminate].
    + apply (W j VJoinError); [reflexivity|congruence|reflexivity|auto|discriminate].
Qed.
Lemma jinv_handle i s s' : jinv s -> j_agent s = None -> jhandle i s = Some s' -> jinv s'.
Proof.
  intros I Ea H. unfold jhandle in H. destruct (nth_error (j_tasks s) i) as [t|] eqn:En; [|discriminate].
  destruct (split_nth _ _ _ En) as (l1 & l2 & El & Li). subst i. destruct t as [|j|e]; [discriminate..|]. rewrite El, drop_nth_at in H.
  pose proof (i_recv _ I Ea) as Rc. rewrite El, recvs_app in Rc.
  assert (Bd : bad e = true -> s' = agent_ends s (Err tt) -> jinv s').
  { intros Be ->. assert (F : failed s) by (apply (i_bad _ I e); [rewrite El; apply in_or_app; right; now left|exact Be]).
    destruct I. constructor; cbn [agent_ends j_jobs j_taken j_queue j_tx j_tasks j_closed j_agent]; try discriminate; auto.
    intros [X|[]]. split; [apply i_closed0; now left|discriminate]. }
  destruct e as [| | |j|]; cbn [is_recv] in Rc.
  - match type of H with Some ?x = _ => assert (X : x = s') by congruence end. rewrite <- X. clear X H s' Bd.
    destruct I. constructor; cbn [with_tasks j_jobs j_taken j_queue j_tx j_tasks j_closed j_agent]; auto.
    + intros _. lia.
    + intros [X|X]; apply i_closed0; [now left|right]. rewrite El. now apply in_more.
    + intros _ k Ik. unfold tracked. cbn [with_tasks j_queue j_tasks j_jobs]. destruct (i_jobs0 Ea k Ik) as [[X|[X|X]]|[X|(e' & X & Be')]].
      * auto.
      * left. right. left. rewrite El in X. apply (in_gone _ _ _ _ X). discriminate.
      * left. right. right. rewrite El in X. apply (in_gone _ _ _ _ X). discriminate.
      * auto.
      * right. right. exists e'. split; [|exact Be']. rewrite El in X. apply (in_gone _ _ _ _ X). intros Y. assert (e' = VSuccessful) by congruence. subst e'. discriminate.
    + intros _ k X. apply (i_tracked0 Ea). unfold tracked in *. cbn [with_tasks j_queue j_tasks] in X. rewrite El. destruct X as [X|[X|X]]; [auto|right; left|right; right]; now apply in_more.
    + intros e' X Be'. destruct (i_bad0 e') as (k & Hk); [rewrite El; now apply in_more|exact Be'|exists k; exact Hk].
  - apply Bd; [reflexivity|congruence].
  - apply Bd; [reflexivity|congruence].
  - match type of H with Some ?x = _ => assert (X : x = s') by congruence end. rewrite <- X. clear X H s' Bd.
    destruct I. constructor; cbn [with_tasks j_jobs j_taken j_queue j_tx j_tasks j_closed j_agent]; auto.
    + intros _. rewrite recvs_snoc. cbn [is_recv]. lia.
    + intros [X|X]; apply i_closed0; [now left|right]. rewrite El. apply in_more. apply in_app_or in X as [X|[X|[X|[]]]]; [exact X|discriminate|discriminate].
    + intros _ k Ik. unfold tracked. cbn [with_tasks j_queue j_tasks j_jobs]. destruct (i_jobs0 Ea k Ik) as [[X|[X|X]]|[X|(e' & X & Be')]].
      * auto.
      * left. right. rewrite El in X. destruct (Nat.eq_dec k j) as [->|Nk]; [right; apply in_or_app; right; right; now left|].
        left. apply in_or_app. left. apply (in_gone _ _ _ _ X). congruence.
      * left. right. right. rewrite El in X. apply in_or_app. left. apply (in_gone _ _ _ _ X). discriminate.
      * auto.
      * right. right. exists e'. split; [|exact Be']. rewrite El in X. apply in_or_app. left. apply (in_gone _ _ _ _ X). intros Y. assert (e' = VReceived j) by congruence. subst e'. discriminate.
    + intros _ k X. apply (i_tracked0 Ea). unfold tracked in *. cbn [with_tasks j_queue j_tasks] in X. rewrite El. destruct X as [X|[X|X]]; [auto|right; left|].
      * apply in_more. apply in_app_or in X as [X|[X|[X|[]]]]; [exact X|discriminate|discriminate].
      * apply in_app_or in X as [X|[X|[X|[]]]]; [right; right; now apply in_more|discriminate|]. assert (k = j) by congruence. subst k. right. left. apply in_or_app. right. now left.
    + intros e' X Be'. destruct (i_bad0 e') as (k & Hk); [|exact Be'|exists k; exact Hk]. rewrite El. apply in_more. apply in_app_or in X as [X|[X|[X|[]]]]; [exact X|discriminate|discriminate].
  - match type of H with Some ?x = _ => assert (X : x = s') by congruence end. rewrite <- X. clear X H s' Bd.
    assert (Cl : j_tx s = false /\ (j_agent s = None -> j_queue s = [])) by (apply (i_closed _ I); right; rewrite El; apply in_or_app; right; now left).
    destruct I. constructor; cbn [j_jobs j_taken j_queue j_tx j_tasks j_closed j_agent]; auto.
    + intros _. destruct (j_closed s); lia.
    + intros _ k Ik. unfold tracked. cbn [j_queue j_tasks j_jobs]. destruct (i_jobs0 Ea k Ik) as [[X|[X|X]]|[X|(e' & X & Be')]].
      * auto.
      * left. right. left. rewrite El in X. apply (in_gone _ _ _ _ X). discriminate.
      * left. right. right. rewrite El in X. apply (in_gone _ _ _ _ X). discriminate.
      * auto.
      * right. right. exists e'. split; [|exact Be']. rewrite El in X. apply (in_gone _ _ _ _ X). intros Y. assert (e' = VClosed) by congruence. subst e'. discriminate.
    + intros _ k X. apply (i_tracked0 Ea). unfold tracked in *. cbn [j_queue j_tasks] in X. rewrite El. destruct X as [X|[X|X]]; [auto|right; left|right; right]; now apply in_more.
    + intros e' X Be'. destruct (i_bad0 e') as (k & Hk); [rewrite El; now apply in_more|exact Be'|exists k; exact Hk].
Qed.
Lemma jinv_idle s s' : jinv s -> j_agent s = None -> jidle s = Some s' -> jinv s'.
Proof.
  intros I Ea H. unfold jidle in H. destruct (j_tasks s) eqn:Et; [|discriminate].
  pose proof (i_recv _ I Ea) as Rc. rewrite Et in Rc. unfold recvs in Rc. cbn [filter length] in Rc. destruct (j_closed s) eqn:Ec; [|discriminate].
  match type of H with Some ?x = _ => assert (X : x = s') by congruence end. rewrite <- X. clear X H s'.
  destruct (i_closed _ I (or_introl Ec)) as [Tx Q]. specialize (Q Ea).
  destruct I. constructor; cbn [agent_ends j_jobs j_taken j_queue j_tx j_tasks j_closed j_agent]; try discriminate; auto; try contradiction.
  - intros _. split; [exact Tx|]. split; [now apply i_taken0|]. intros j Ij. destruct (i_jobs0 Ea j Ij) as [[X|[X|X]]|[X|(e & X & _)]]; [| | |exact X|].
    + rewrite Q in X. contradiction.
    + rewrite Et in X. contradiction.
    + rewrite Et in X. contradiction.
    + rewrite Et in X. contradiction.
Qed.
Lemma jinv_do st s s' : jinv s -> jdo st s = Some s' -> jinv s'.
Proof.
  intros I H. destruct st as [late|j r| |i|i|]; cbn [jdo] in H.
  - destruct (j_tx s) eqn:T; [|discriminate]. assert (X : fst (jspawn late s) = s') by congruence. rewrite <- X. now apply jinv_spawn.
  - destruct (nth_error (j_jobs s) j) as [[|]|] eqn:E; [discriminate| |discriminate].
    match type of H with Some ?x = _ => assert (X : x = s') by congruence end. rewrite <- X. now apply jinv_finish.
  - destruct (j_tx s) eqn:T; [|discriminate]. match type of H with Some ?x = _ => assert (X : x = s') by congruence end. rewrite <- X. now apply jinv_leave.
  - destruct (j_agent s) eqn:Ea; [discriminate|]. exact (jinv_work i s s' I Ea H).
  - destruct (j_agent s) eqn:Ea; [discriminate|]. exact (jinv_handle i s s' I Ea H).
  - destruct (j_agent s) eqn:Ea; [discriminate|]. exact (jinv_idle s s' I Ea H).
Qed.
Lemma jinv_run l : forall s s', jinv s -> jrun l s = Some s' -> jinv s'.
Proof.
  induction l as [|st l IH]; intros s s' I H; cbn [jrun] in H; [congruence|].
  destruct (jdo st s) as [s1|] eqn:E; [|discriminate]. exact (IH s1 s' (jinv_do _ _ _ I E) H).
Qed.

(** A state that some history leads to *)
Definition reached (s : jan) : Prop := exists l, jrun l jan0 = Some s.

(** C74: when [enter_janitor] returns, every job that was started has been taken and has ended with success, and the result is the
    future's; otherwise it panics, and some job that was taken has failed *)
Theorem C74_waits_for_jobs : forall {T E} s (callee r : res E T), reached s -> enter_result s callee = Some r ->
  (r = callee /\ forall j, (j < length (j_jobs s))%nat -> In j (j_taken s) /\ nth_error (j_jobs s) j = Some (Some JOk)) \/
  (r = Panic /\ exists j, In j (j_taken s) /\ (nth_error (j_jobs s) j = Some (Some JErr) \/ nth_error (j_jobs s) j = Some (Some JPanic))).
Proof.
  intros T E s callee r (l & R) H. pose proof (jinv_run l jan0 s jinv0 R) as I. unfold enter_result in H. destruct (j_tx s) eqn:Tx; [discriminate|].
  destruct (j_agent s) as [a|] eqn:Ea; [|discriminate]. destruct a as [[]|[]|].
  - left. cbn [unwrap_janitor] in H. split; [congruence|]. destruct (i_ok _ I Ea) as (_ & Tk & Ok_). intros j Lj.
    assert (Ij : In j (j_taken s)) by (rewrite Tk; apply in_seq; lia). auto.
  - right. cbn [unwrap_janitor] in H. split; [congruence|]. exact (i_err _ I Ea).
  - destruct (i_panic _ I Ea).
Qed.
Print Assumptions C74_waits_for_jobs.
(** C74: the agent never finds itself without tasks while the queue is open (the internal error of lines 257-265) *)
Theorem C74_no_internal_error : forall s, reached s -> j_agent s <> Some Panic.
Proof. intros s (l & R). exact (i_panic _ (jinv_run l jan0 s jinv0 R)). Qed.
Print Assumptions C74_no_internal_error.

(** What the agent still has to do *)
Definition effort (t : jtask) : nat := match t with TRecv => 2 | TWait _ => 2 | TEnded (VReceived _) => 5 | TEnded _ => 1 end.
Definition work_left (s : jan) : nat :=
  match j_agent s with Some _ => 0 | None => S (list_sum (map effort (j_tasks s)) + 4 * length (j_queue s)) end.
Lemma effort_app l1 t l2 : list_sum (map effort (l1 ++ t :: l2)) = (list_sum (map effort (l1 ++ l2)) + effort t)%nat.
Proof. rewrite !map_app, !list_sum_app. cbn [map]. change (list_sum (effort t :: map effort l2)) with (effort t + list_sum (map effort l2))%nat. lia. Qed.

(** A step of the agent itself *)
Definition of_agent (st : jstep) : bool := match st with SWork _ | SHandle _ | SIdle => true | _ => false end.
(** C74: the agent cannot go on for ever by itself: each of its steps leaves it less to do *)
Theorem C74_progress : forall st s s', of_agent st = true -> jdo st s = Some s' -> (work_left s' < work_left s)%nat.
Proof.
  intros st s s' O H. destruct st as [late|j r| |i|i|]; try discriminate O; cbn [jdo] in H; unfold work_left; (destruct (j_agent s) eqn:Ea; [discriminate|]).
  - unfold jwork in H. destruct (nth_error (j_tasks s) i) as [t|] eqn:En; [|discriminate]. destruct (split_nth _ _ _ En) as (l1 & l2 & El & Li). subst i.
    rewrite El, !set_nth_at in H. rewrite El. destruct t as [|j|e]; [| |discriminate].
    + destruct (j_queue s) as [|j q] eqn:Eq.
      * destruct (j_tx s); [discriminate|]. assert (X : with_tasks s (l1 ++ TEnded VClosed :: l2) = s') by congruence. rewrite <- X.
        cbn [with_tasks j_agent j_tasks j_queue]. rewrite Ea, Eq, !effort_app. cbn [effort]. lia.
      * rewrite set_nth_at in H. match type of H with Some ?x = _ => assert (X : x = s') by congruence end. rewrite <- X. cbn [j_agent j_tasks j_queue length]. rewrite ?Ea, !effort_app. cbn [effort]. lia.
    + assert (X : exists e, s' = with_tasks s (l1 ++ TEnded e :: l2) /\ effort (TEnded e) = 1%nat).
      { destruct (nth_error (j_jobs s) j) as [[[]|]|]; try discriminate H; eexists; (split; [symmetry; match type of H with Some ?x = _ => assert (Y : x = s') by congruence end; exact Y|reflexivity]). }
      destruct X as (e & -> & Ee). cbn [with_tasks j_agent j_tasks j_queue]. rewrite Ea, !effort_app, Ee. cbn [effort]. lia.
  - unfold jhandle in H. destruct (nth_error (j_tasks s) i) as [t|] eqn:En; [|discriminate]. destruct (split_nth _ _ _ En) as (l1 & l2 & El & Li). subst i.
    destruct t as [|j|e]; [discriminate..|]. rewrite El, drop_nth_at in H. rewrite El, effort_app.
    destruct e as [| | |j|]; match type of H with Some ?x = _ => assert (X : x = s') by congruence end; rewrite <- X; cbn [with_tasks agent_ends j_agent j_tasks j_queue effort]; rewrite ?Ea; try lia.
    rewrite map_app, list_sum_app. cbn [map effort list_sum fold_right]. lia.
  - unfold jidle in H. destruct (j_tasks s); [|discriminate]. assert (X : agent_ends s (if j_closed s then Ok tt else Panic) = s') by congruence. rewrite <- X.
    cbn [agent_ends j_agent]. lia.
Qed.
Print Assumptions C74_progress.
(** C74: when the future is done and the jobs have ended, the agent can make a step until it has ended; with [C74_progress], it ends,
    and so does [enter_janitor] *)
Theorem C74_ends : forall s, reached s -> j_tx s = false -> (forall j, In j (j_taken s) -> nth_error (j_jobs s) j <> Some None) ->
  j_agent s = None -> exists st s', of_agent st = true /\ jdo st s = Some s'.
Proof.
  intros s (l & R) Tx D Ea. pose proof (jinv_run l jan0 s jinv0 R) as I. destruct (j_tasks s) as [|t ts] eqn:Et.
  - exists SIdle. eexists. split; [reflexivity|]. cbn [jdo]. rewrite Ea. unfold jidle. rewrite Et. reflexivity.
  - destruct t as [|j|e].
    + exists (SWork 0). cbn [jdo]. rewrite Ea. unfold jwork. rewrite Et. cbn [nth_error]. destruct (j_queue s); [rewrite Tx|]; eauto.
    + exists (SWork 0). cbn [jdo]. rewrite Ea. unfold jwork. rewrite Et. cbn [nth_error].
      assert (Ij : In j (j_taken s)) by (apply (i_tracked _ I Ea); right; right; rewrite Et; now left).
      pose proof (i_under _ I j Ij) as Lj. apply nth_error_Some in Lj. specialize (D j Ij). destruct (nth_error (j_jobs s) j) as [[[]|]|]; try contradiction; eauto.
    + exists (SHandle 0). cbn [jdo]. rewrite Ea. unfold jhandle. rewrite Et. cbn [nth_error]. destruct e; eauto.
Qed.
Print Assumptions C74_ends.
(** C74: a job is taken as long as no job has failed *)
Theorem C74_takes_jobs_partial : forall late s, reached s -> j_tx s = true -> ~ failed s -> snd (jspawn late s) = Ok tt.
Proof.
  intros late s (l & R) Tx Nf. pose proof (jinv_run l jan0 s jinv0 R) as I. unfold jspawn. destruct (j_agent s) as [a|] eqn:Ea; [|reflexivity].
  exfalso. destruct a as [[]|[]|].
  - destruct (i_ok _ I Ea). congruence.
  - exact (Nf (i_err _ I Ea)).
  - exact (i_panic _ I Ea).
Qed.
Print Assumptions C74_takes_jobs_partial.

(** Two jobs; one succeeds, and then the other *)
Example C74_case :
  exists s, reached s /\ enter_result s (@Ok unit nat 7%nat) = Some (Ok 7%nat) /\ length (j_jobs s) = 2%nat.
Proof.
  eexists. split.
  - exists [SSpawn false; SWork 0; SHandle 0; SSpawn false; SFinish 1 JOk; SWork 0; SLeave; SHandle 0; SFinish 0 JOk; SWork 0; SHandle 0; SWork 0; SHandle 0; SWork 0; SHandle 0; SIdle].
    vm_compute. reflexivity.
  - vm_compute. auto.
Qed.
(** C74: after one job has failed, [enter_janitor] does not wait for the others *)
Theorem C74_others_abandoned_refuted : forall {T E} (callee : res E T),
  exists s, reached s /\ enter_result s callee = Some Panic /\ In 1%nat (j_taken s) /\ nth_error (j_jobs s) 1 = Some None.
Proof.
  intros T E callee. eexists. split.
  - exists [SSpawn false; SSpawn false; SWork 0; SHandle 0; SFinish 0 JErr; SWork 1; SHandle 1; SLeave]. vm_compute. reflexivity.
  - split; [reflexivity|]. split; [right; now left|reflexivity].
Qed.
Print Assumptions C74_others_abandoned_refuted.
(** C74: after one job has failed, others are refused, and scheduling one panics, or they are taken and forgotten *)
Theorem C74_refused_refuted :
  exists s, reached s /\ j_tx s = true /\ snd (jspawn false s) = Panic /\ snd (jspawn true s) = Ok tt /\ j_tasks (fst (jspawn true s)) = [] /\ j_queue (fst (jspawn true s)) = j_queue s.
Proof.
  eexists. split.
  - exists [SSpawn false; SWork 0; SHandle 0; SFinish 0 JErr; SWork 1; SHandle 1]. vm_compute. reflexivity.
  - repeat split; reflexivity.
Qed.
Print Assumptions C74_refused_refuted.
(** C74: [has_active_janitor] is false where a janitor is active, and true where it has gone: it returns what [is_closed] says; outside of any
    janitor it is false, as it should be *)
Theorem C74_active_refuted : forall s, reached s -> j_tx s = true -> j_agent s = None ->
  has_active_janitor true false s = false /\ has_active_janitor true true s = true /\ forall gone, has_active_janitor false gone s = false.
Proof. intros s _ Tx _. unfold has_active_janitor. rewrite Tx. auto. Qed.
Print Assumptions C74_active_refuted.
