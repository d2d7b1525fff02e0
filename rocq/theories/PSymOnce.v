(** C99: in every history of servers a key is taken once at each end.  A server never completes a handshake twice with one
    InitConf, nor takes two RespHellos for one InitHello; so different completed handshakes of responders belong to different
    handshakes of initiators, and the other way round. *)
From Verif Require Import Base ConstTime Prims HashDomains Wire Server Protocol Wp Inv Rules Calls PollRules System Trans.
From Verif Require Import Sym SymSec PSym PSymLink SymRun PSymRun PSymKeys.

Section Once.
Context (P : prims) (v : name -> bytes) (cfg : nat -> list entry).
Notation history := (history P v cfg).

(** An InitConf that was accepted stays counted at its peer. *)
Lemma done_counted W tr A k g m ctr : history W tr -> In (EDone A k g m ctr) tr ->
  exists i q ck x n, s_done (cfg A) A k g m = Some (q, ck) /\ nth_error (cfg A) i = Some q /\ pe (W A) i = Some x /\
    conf_number P v m = Some n /\ (le_dec n <= le_dec (p_biscuit_used x))%N.
Proof.
  intros Hy. induction Hy as [W St|W tr B run c M s' r tr' Hy IH Al E Ex Ep Sp|W tr n Hy IH|W tr g' ck ds Hy IH C]; intros I.
  - destruct I.
  - assert (In (EDone A k g m ctr) tr -> exists i q ck x n, s_done (cfg A) A k g m = Some (q, ck) /\ nth_error (cfg A) i = Some q /\
      pe (put B s' W A) i = Some x /\ conf_number P v m = Some n /\ (le_dec n <= le_dec (p_biscuit_used x))%N) as Old.
    { intros I0. destruct (IH I0) as (i & q & ck & x & n & S & N & X & Cn & Le). unfold put. destruct (Nat.eqb_spec B A) as [->|_].
      - destruct (C95_histories_explained P v cfg W tr Hy) as [_ K]. destruct (K A) as [Iv _].
        pose proof (exec_evo P c (W A) s' r Iv (proj1 Al) E) as Ev. destruct (ev_pe _ _ Ev i x X) as (x' & X' & Pe).
        exists i, q, ck, x', n. repeat split; auto. destruct Pe. lia.
      - exists i, q, ck, x, n. auto. }
    destruct Ex as [->|(e & Ce & ->)]; [auto|]. destruct I as [->|I]; [|auto]. clear IH Old. cbn [causes] in Ce.
    destruct Ce as (<- & _ & _ & i & q & ck & S & N & x & x' & X & X' & Cn & Lt).
    exists i, q, ck, x', (p_biscuit_used x'). unfold put. rewrite Nat.eqb_refl. repeat split; auto. lia.
  - destruct I as [I|I]; [discriminate I|auto].
  - destruct I as [I|I]; [discriminate I|auto].
Qed.

Lemma done_same_peer B k g m q ck k' g' q' ck' : cfg_ok cfg -> s_done (cfg B) B k g m = Some (q, ck) ->
  s_done (cfg B) B k' g' m = Some (q', ck') -> q = q'.
Proof.
  intros C S S'. destruct (done_spec _ _ _ _ _ _ _ S) as (n & bno & c0 & pt & W1 & _).
  destruct (done_spec _ _ _ _ _ _ _ S') as (n' & bno' & c0' & pt' & W1' & _). rewrite W1 in W1'.
  assert (s_pid (e_alg q) (e_pk q) = s_pid (e_alg q') (e_pk q')) as Ep by congruence.
  assert (forall k g m q ck, s_done (cfg B) B k g m = Some (q, ck) -> In q (cfg B)) as InC.
  { intros k0 g0 m0 q0 ck0 Z. unfold s_done in Z. destruct (s_unbiscuit _ _ _ _ _ _) as [[pid c1]|]; [|discriminate].
    destruct (s_find (cfg B) pid) as [q1|] eqn:Fd; [|discriminate]. unfold s_find in Fd. apply find_some in Fd.
    assert (q1 = q0); [|subst; apply Fd]. clear Fd.
    repeat match type of Z with context [match ?t with _ => _ end] => destruct t end; congruence. }
  destruct (In_nth_error _ _ (InC _ _ _ _ _ S)) as [i Hi]. destruct (In_nth_error _ _ (InC _ _ _ _ _ S')) as [j Hj].
  eapply C; eauto.
Qed.

Lemma done_new W tr B k g m ctr k' g' ctr' : cfg_ok cfg -> history W tr ->
  forall t1 t2, tr = t2 ++ EDone B k g m ctr :: t1 -> ~ In (EDone B k' g' m ctr') t1.
Proof.
  intros C Hy. induction Hy as [W St|W tr A run c M s' r tr0 Hy IH Al E Ex Ep Sp|W tr n Hy IH|W tr g0 ck ds Hy IH Cp]; intros t1 t2 Et I.
  - destruct t2; discriminate Et.
  - destruct Ex as [->|(e & Ce & ->)]; [exact (IH _ _ Et I)|].
    destruct t2 as [|e2 t2]; cbn [app] in Et.
    2:{ assert (tr = t2 ++ EDone B k g m ctr :: t1) by congruence. eapply IH; eauto. }
    assert (e = EDone B k g m ctr) by congruence. assert (t1 = tr) by congruence. subst e t1. clear Et. cbn [causes] in Ce.
    destruct Ce as (<- & _ & _ & i & q & ck & S & N & x & x' & X & X' & Cn & Lt).
    destruct (done_counted W tr B k' g' m ctr' Hy I) as (i' & q' & ck' & y & n & S' & N' & Y & Cn' & Le).
    assert (q = q') by (eapply done_same_peer; eauto). subst q'.
    destruct (C95_histories_explained P v cfg W tr Hy) as [_ K]. destruct (K B) as [Iv G].
    assert (i = i') by (eapply entry_once; eauto). subst i'.
    assert (y = x) by congruence. subst y. assert (n = p_biscuit_used x') by congruence. subst n. lia.
  - destruct t2 as [|e2 t2]; cbn [app] in Et; [discriminate Et|]. apply (IH t1 t2); [congruence|exact I].
  - destruct t2 as [|e2 t2]; cbn [app] in Et; [discriminate Et|]. apply (IH t1 t2); [congruence|exact I].
Qed.

Lemma conf_new W tr A run p m p' m' : history W tr ->
  forall t1 t2, tr = t2 ++ EConf run A p m :: t1 -> ~ In (EConf run A p' m') t1.
Proof.
  intros Hy. induction Hy as [W St|W tr B r0 c M s' r tr0 Hy IH Al E Ex Ep Sp|W tr n Hy IH|W tr g0 ck ds Hy IH Cp]; intros t1 t2 Et I.
  - destruct t2; discriminate Et.
  - destruct Ex as [->|(e & Ce & ->)]; [exact (IH _ _ Et I)|].
    destruct t2 as [|e2 t2]; cbn [app] in Et.
    2:{ assert (tr = t2 ++ EConf run A p m :: t1) by congruence. eapply IH; eauto. }
    assert (e = EConf run A p m) by congruence. assert (t1 = tr) by congruence. subst e t1. clear Et. cbn [causes] in Ce.
    destruct Ce as (<- & _ & Nc & _). apply Nc. now exists p', m'.
  - destruct t2 as [|e2 t2]; cbn [app] in Et; [discriminate Et|]. apply (IH t1 t2); [congruence|exact I].
  - destruct t2 as [|e2 t2]; cbn [app] in Et; [discriminate Et|]. apply (IH t1 t2); [congruence|exact I].
Qed.
End Once.

(** Two events of which the later does not follow the earlier are one. *)
Lemma same_place {X} (Q Q' : X -> Prop) tr :
  (forall t1 t2 e e', tr = t2 ++ e :: t1 -> Q e -> Q' e' -> ~ In e' t1) ->
  (forall t1 t2 e e', tr = t2 ++ e' :: t1 -> Q' e' -> Q e -> ~ In e t1) ->
  forall i j e e', nth_error tr i = Some e -> nth_error tr j = Some e' -> Q e -> Q' e' -> i = j.
Proof.
  intros F1 F2 i j e e' Hi Hj K K'. destruct (Nat.lt_total i j) as [L|[->|L]]; [exfalso|reflexivity|exfalso].
  - destruct (nth_error_split _ _ Hi) as (t2 & t1 & Et & Le). apply (F1 t1 t2 e e' Et K K').
    rewrite Et, nth_error_app2 in Hj by lia. destruct (j - length t2) as [|d] eqn:D; [lia|]. cbn [nth_error] in Hj.
    eapply nth_error_In; eauto.
  - destruct (nth_error_split _ _ Hj) as (t2 & t1 & Et & Le). apply (F2 t1 t2 e e' Et K' K).
    rewrite Et, nth_error_app2 in Hi by lia. destruct (i - length t2) as [|d] eqn:D; [lia|]. cbn [nth_error] in Hi.
    eapply nth_error_In; eauto.
Qed.

(** * C99 *)

(** One InitConf completes one handshake of one server: whatever the attacker repeats, and whichever biscuit key and hash function
    the server tries. *)
Theorem C99_init_conf_once P v cfg W tr i j B k g m ctr B' k' g' ctr' :
  cfg_ok cfg -> history P v cfg W tr ->
  nth_error tr i = Some (EDone B k g m ctr) -> nth_error tr j = Some (EDone B' k' g' m ctr') -> i = j.
Proof.
  intros C Hy Hi Hj. destruct (C95_histories_explained P v cfg W tr Hy) as [V _].
  assert (forall B k g m ctr, In (EDone B k g m ctr) tr -> exists q ck, s_done (cfg B) B k g m = Some (q, ck)) as Dn.
  { intros B0 k0 g0 m0 c0 I0. destruct (valid_split cfg _ _ V I0) as (t2 & t1 & _ & V1).
    destruct (valid_done _ _ _ _ _ _ _ V1) as (_ & _ & S). exact S. }
  assert (B' = B) as ->.
  { destruct (Dn _ _ _ _ _ (nth_error_In _ _ Hi)) as (q & ck & S). destruct (Dn _ _ _ _ _ (nth_error_In _ _ Hj)) as (q' & ck' & S').
    destruct (done_spec _ _ _ _ _ _ _ S) as (n & bno & c0 & pt & W1 & _).
    destruct (done_spec _ _ _ _ _ _ _ S') as (n' & bno' & c0' & pt' & W1' & _). rewrite W1 in W1'. congruence. }
  apply (same_place (fun e => e = EDone B k g m ctr) (fun e => e = EDone B k' g' m ctr') tr) with (3 := Hi) (4 := Hj); auto.
  - intros t1 t2 e e' Et -> ->. eapply done_new; eauto.
  - intros t1 t2 e e' Et -> ->. eapply done_new; eauto.
Qed.
Print Assumptions C99_init_conf_once.

(** One InitHello gets one answer: a server that started a handshake takes one RespHello for it. *)
Theorem C99_one_answer P v cfg W tr i j run A p m A' p' m' :
  history P v cfg W tr ->
  nth_error tr i = Some (EConf run A p m) -> nth_error tr j = Some (EConf run A' p' m') -> i = j.
Proof.
  intros Hy Hi Hj. destruct (C95_histories_explained P v cfg W tr Hy) as [V _].
  destruct (init_unique _ _ _ _ _ _ _ V (conf_init _ _ _ _ _ _ V (nth_error_In _ _ Hi)) (conf_init _ _ _ _ _ _ V (nth_error_In _ _ Hj)))
    as [<- <-].
  apply (same_place (fun e => e = EConf run A p m) (fun e => e = EConf run A p m') tr) with (3 := Hi) (4 := Hj); auto.
  - intros t1 t2 e e' Et -> ->. eapply conf_new; eauto.
  - intros t1 t2 e e' Et -> ->. eapply conf_new; eauto.
Qed.
Print Assumptions C99_one_answer.

(** No two completed handshakes of responders have the same key. *)
Theorem C99_responder_keys_differ P v cfg W tr i j B k g m ctr B' k' g' m' ctr' q q' ck :
  cfg_ok cfg -> history P v cfg W tr ->
  nth_error tr i = Some (EDone B k g m ctr) -> s_done (cfg B) B k g m = Some (q, ck) ->
  nth_error tr j = Some (EDone B' k' g' m' ctr') -> s_done (cfg B') B' k' g' m' = Some (q', ck) -> i = j.
Proof.
  intros C Hy Hi S Hj S'.
  destruct (C98_responders cfg tr B k q m B' k' q' m' ck) as (<- & <- & _ & <-).
  - exists g, ctr. split; [eapply nth_error_In; exact Hi|exact S].
  - exists g', ctr'. split; [eapply nth_error_In; exact Hj|exact S'].
  - eapply C99_init_conf_once; eauto.
Qed.
Print Assumptions C99_responder_keys_differ.

(** Nor two of initiators. *)
Theorem C99_initiator_keys_differ P v cfg W tr i j run A p m run' A' p' m' ic ic' ck :
  history P v cfg W tr ->
  nth_error tr i = Some (EConf run A p m) -> s_conf run A p m = Some (ic, ck) ->
  nth_error tr j = Some (EConf run' A' p' m') -> s_conf run' A' p' m' = Some (ic', ck) -> i = j.
Proof.
  intros Hy Hi S Hj S'. destruct (C95_histories_explained P v cfg W tr Hy) as [V _].
  destruct (C98_initiators cfg tr run A p m run' A' p' m' ck V) as (<- & _).
  - split; [eapply nth_error_In; exact Hi|eauto].
  - split; [eapply nth_error_In; exact Hj|eauto].
  - eapply C99_one_answer; eauto.
Qed.
Print Assumptions C99_initiator_keys_differ.

(** Agreement is one to one: with the keys in order, every completed handshake of a responder has its own handshake of an
    initiator with the same key. *)
Definition own_initiator (cfg : nat -> list entry) (tr : list Sym.event) (B k : nat) (g : halg) (m : s_ic) (run : nat) : Prop :=
  exists q ck A p rh, s_done (cfg B) B k g m = Some (q, ck) /\ initiator_has tr run A p rh ck /\
    e_pk p = pkey B /\ e_pk q = pkey A /\ e_psk p = e_psk q /\ e_alg p = e_alg q.
Theorem C99_injective_agreement P v cfg W tr :
  cfg_ok cfg -> history P v cfg W tr -> no_biscuit_key tr ->
  (forall i B k g m ctr, nth_error tr i = Some (EDone B k g m ctr) ->
     (forall q ck, s_done (cfg B) B k g m = Some (q, ck) -> keys_in_order tr q) -> exists run, own_initiator cfg tr B k g m run) /\
  (forall i j B k g m ctr B' k' g' m' ctr' run,
     nth_error tr i = Some (EDone B k g m ctr) -> own_initiator cfg tr B k g m run ->
     nth_error tr j = Some (EDone B' k' g' m' ctr') -> own_initiator cfg tr B' k' g' m' run -> i = j).
Proof.
  intros C Hy NB. destruct (C95_histories_explained P v cfg W tr Hy) as [V _]. split.
  - intros i B k g m ctr Hi KO. destruct (nth_error_split _ _ Hi) as (t2 & t1 & Et & _).
    assert (L : incl t1 tr). { rewrite Et. intros z Z. apply in_or_app. right. right. exact Z. }
    assert (V' := V). rewrite Et in V'.
    destruct (C91_responder_agreement _ _ _ _ _ _ _ _ V') as (q & ck & run' & m' & rh & S & _ & Ag).
    { intros R. exact (NB B k (L _ R)). }
    destruct Ag as (run & A & p & [I1 S1] & _ & X1 & X2 & X3 & X4).
    { apply order_pk. eapply order_before; [exact L|]. eapply KO; eauto. }
    exists run, q, ck, A, p, rh. split; [exact S|]. split; [split; [apply L; exact I1|exact S1]|auto].
  - intros i j B k g m ctr B' k' g' m' ctr' run Hi (q & ck & A & p & rh & S & [I1 (ic & S1)] & _)
      Hj (q' & ck' & A' & p' & rh' & S' & [I1' (ic' & S1')] & _).
    assert (ck = ck') as Ec.
    { destruct (In_nth_error _ _ I1) as [n Hn]. destruct (In_nth_error _ _ I1') as [n' Hn'].
      assert (n = n') by (eapply C99_one_answer; eauto). subst n'. rewrite Hn in Hn'.
      assert (A' = A) by congruence. assert (p' = p) by congruence. assert (rh' = rh) by congruence. subst. congruence. }
    subst ck'. eapply C99_responder_keys_differ; eauto.
Qed.
Print Assumptions C99_injective_agreement.

(** Every handshake of an initiator that got its answer has its own answer of a responder. *)
Theorem C99_injective_answers P v cfg W tr :
  history P v cfg W tr -> no_biscuit_key tr ->
  (forall i run A p m, nth_error tr i = Some (EConf run A p m) -> keys_in_order tr p ->
     exists B run' k q, answered cfg tr run' B k (fst (s_init run A p)) q m /\ e_pk p = pkey B /\ e_pk q = pkey A) /\
  (forall i j run A p m run0 A0 p0 m0 run' B k q B0 k0 q0,
     nth_error tr i = Some (EConf run A p m) -> answered cfg tr run' B k (fst (s_init run A p)) q m ->
     nth_error tr j = Some (EConf run0 A0 p0 m0) -> answered cfg tr run' B0 k0 (fst (s_init run0 A0 p0)) q0 m0 -> i = j).
Proof.
  intros Hy NB. destruct (C95_histories_explained P v cfg W tr Hy) as [V _]. split.
  - intros i run A p m Hi KO. destruct (nth_error_split _ _ Hi) as (t2 & t1 & Et & _).
    assert (L : incl t1 tr). { rewrite Et. intros z Z. apply in_or_app. right. right. exact Z. }
    assert (V' := V). rewrite Et in V'.
    destruct (C91_initiator_agreement _ _ _ _ _ _ _ V') as (B & run' & k & q & (bno & g & ck & I1 & S1) & X1 & X2 & _).
    { apply order_pk. eapply order_before; [exact L|exact KO]. }
    { intros r B k bno g m' _ _ _ Y. exact (NB B k (L _ Y)). }
    exists B, run', k, q. split; [exists bno, g, ck; split; [apply L; exact I1|exact S1]|auto].
  - intros i j run A p m run0 A0 p0 m0 run' B k q B0 k0 q0 Hi (bno & g & ck & I1 & S1) Hj (bno0 & g0 & ck0 & I2 & S2).
    destruct (resp_unique _ _ _ _ _ _ _ _ _ _ _ _ _ V I1 I2) as (_ & _ & _ & _ & Em).
    assert (run = run0) as <-. { apply (f_equal y_sidi) in Em. change (Nm (NSid run) = Nm (NSid run0)) in Em. congruence. }
    eapply C99_one_answer; eauto.
Qed.
Print Assumptions C99_injective_answers.

(** The run of [Demo]: each end completes a handshake, and the keys are in order. *)
Example C99_example : exists W tr i j run p rh k g m ctr q ck, history Toy.prims ex_v ex_cfg W tr /\ cfg_ok ex_cfg /\
  no_biscuit_key tr /\ nth_error tr i = Some (EConf run 0 p rh) /\ keys_in_order tr p /\
  nth_error tr j = Some (EDone 1 k g m ctr) /\ s_done (ex_cfg 1) 1 k g m = Some (q, ck) /\ keys_in_order tr q.
Proof.
  destruct C96_example as (W & tr & key & Hy & W0 & W1 & K0 & K1 & NB & _).
  set (f := fun s => match nth_error (s_peers s) 0 with
    | Some x => match p_session x with Some u => Some (se_role u) | None => None end | None => None end).
  assert (F1 : f (W 0) = Some Initiator) by (rewrite W0; vm_compute; reflexivity).
  assert (F2 : f (W 1) = Some Responder) by (rewrite W1; vm_compute; reflexivity).
  unfold f in *. clear f.
  destruct (nth_error (s_peers (W 0)) 0) as [x|] eqn:X; [|discriminate F1]. destruct (p_session x) as [u|] eqn:U; [|discriminate F1].
  destruct (nth_error (s_peers (W 1)) 0) as [x'|] eqn:X'; [|discriminate F2]. destruct (p_session x') as [u'|] eqn:U'; [|discriminate F2].
  destruct (C95_sessions _ _ _ W tr 0 0 x u Hy X U) as (q & ck & N & _ & _ & _ & R).
  destruct (C95_sessions _ _ _ W tr 1 0 x' u' Hy X' U') as (q' & ck' & N' & _ & _ & _ & R').
  assert (E1 : se_role u = Initiator) by congruence. assert (E2 : se_role u' = Responder) by congruence.
  rewrite E1 in R. rewrite E2 in R'. destruct R as (run & m & I1 & _). destruct R' as (k & ic & g & ctr & I2 & S2).
  destruct (In_nth_error _ _ I1) as [i Hi]. destruct (In_nth_error _ _ I2) as [j Hj].
  assert (q = ex_entry 1) by (cbn in N; congruence). assert (q' = ex_entry 0) by (cbn in N'; congruence). subst q q'.
  exists W, tr, i, j, run, (ex_entry 1), m, k, g, ic, ctr, (ex_entry 0), ck'.
  split; [exact Hy|]. split; [exact ex_cfg_ok|]. split; [exact NB|]. auto.
Qed.
