(** C14, C15: retransmission delays and the age of biscuit keys. *)
From Verif Require Import Base ConstTime Prims HashDomains Wire Server Protocol Wp Inv Rules Calls PollRules System Trans Spec Demo PReplay PPoll.
Local Open Scope Z_scope.

(** * C14 *)

(** min(0.5 s * 2^n, 10 s) in microseconds *)
Definition backoff (n : N) : Z := Z.min (500000 * 2 ^ Z.of_N n) (secs 10).

Lemma backoff_base n : retransmit_base n = backoff n.
Proof.
  unfold retransmit_base, backoff, RETRANSMIT_DELAY_BEGIN, RETRANSMIT_DELAY_END.
  destruct (N.leb_spec n 4) as [H|H].
  - assert (n = 0 \/ n = 1 \/ n = 2 \/ n = 3 \/ n = 4)%N as K by lia.
    destruct K as [->|[->|[->|[->| ->]]]]; reflexivity.
  - assert (2 ^ 5 <= 2 ^ Z.of_N n) by (apply Z.pow_le_mono_r; lia).
    change (2 ^ 5) with 32 in *. change (secs 10) with 10000000. lia.
Qed.

(** The delay lies between half (rounded down) and the whole of the back-off; in particular it
    never reaches 10 s, however many retransmissions there were. *)
Theorem C14_delay_bounds : forall n jitter, 0 <= jitter < 2 ^ 53 ->
  backoff n / 2 <= retransmit_delay n jitter < backoff n /\ backoff n <= secs 10.
Proof.
  intros n j H. unfold retransmit_delay. rewrite backoff_base.
  assert (0 < backoff n) as Hb.
  { unfold backoff. assert (0 < 2 ^ Z.of_N n) by (apply Z.pow_pos_nonneg; lia).
    change (secs 10) with 10000000. lia. }
  split; [|unfold backoff; lia]. change (2 ^ 54) with (2 ^ 53 * 2). split.
  - rewrite <- (Z.div_mul_cancel_r (backoff n) 2 (2 ^ 53)) by lia.
    rewrite (Z.mul_comm 2 (2 ^ 53)). apply Z.div_le_mono; [lia|]. nia.
  - apply Z.div_lt_upper_bound; [lia|]. nia.
Qed.
Print Assumptions C14_delay_bounds.

Example backoff_values : map backoff [0; 1; 4; 5; 1000]%N
  = [500000; 1000000; 8000000; 10000000; 10000000].
Proof. reflexivity. Qed.

(** The jitter really spans the interval, and it only shortens the delay: the comment in the
    code says +-50%, but no draw gives more than the base delay. *)
Theorem C14_jitter_is_symmetric_refuted :
  ~ (exists n jitter, 0 <= jitter < 2 ^ 53 /\ retransmit_delay n jitter >= backoff n).
Proof. intros (n & j & H & G). pose proof (C14_delay_bounds n j H). lia. Qed.
Print Assumptions C14_jitter_is_symmetric_refuted.

(** When poll asks for a retransmission for [p] at [now]: there is a handshake younger than
    180 s whose retransmission was due; the next one is then scheduled with a delay as above
    and the count is increased; nothing else about the handshake changes. *)
Theorem C14_retransmission : forall P s c s' p,
  reachable P s -> valid c s -> c_op c = OPoll ->
  exec P c s = (s', Ok (RPolled (SendRetransmission p))) ->
  exists x h x' h' d, pe s p = Some x /\ p_handshake x = Some h /\
    c_now c + 2500 <= hs_created h + secs 180 /\ hs_retry_at h < c_now c + 2500 /\
    pe s' p = Some x' /\ p_handshake x' = Some h' /\
    hs_retry_at h' = c_now c + d /\ backoff (hs_tx_count h) / 2 <= d < backoff (hs_tx_count h) /\
    hs_tx_count h' = (hs_tx_count h + 1)%N /\
    hs_created h' = hs_created h /\ hs_sid h' = hs_sid h /\ hs_next h' = hs_next h /\
    hs_tx_len h' = hs_tx_len h /\ hs_tx_buf h' = hs_tx_buf h /\ hs_cookie h' = hs_cookie h.
Proof.
  intros P s c s' p (s0 & h0 & Hi & R0) V Eo E.
  pose proof (run_inv P _ _ _ (initial_inv P _ Hi) R0) as I.
  destruct (poll_cases P c s s' _ I V Eo E)
    as [(u & [=] & _)|(r0 & q & y & y' & i & Er0 & Er & _ & Y & Y' & _ & K & _)].
  injection Er0 as <-. cbn in Er. injection Er as <-.
  destruct K as [(_ & [=] & _)|[(_ & [=] & _)|(Ev & _ & ->)]].
  apply event_retry in Ev. destruct Ev as (h & Hh & Hl & Hr).
  assert (p_handshake (drop_hs (c_now c) y) = Some h) as Hd by (apply drop_hs_some; auto).
  unfold retried in Y'. rewrite Hd in Y'.
  exists y, h. eexists. eexists. exists (retransmit_delay (hs_tx_count h) (c_jitter (c_coins c))).
  split; [exact Y|]. split; [exact Hh|]. unfold reached in *. split; [lia|]. split; [lia|].
  split; [exact Y'|]. split; [reflexivity|]. split; [reflexivity|].
  split; [apply C14_delay_bounds; apply V|]. repeat split; reflexivity.
Qed.
Print Assumptions C14_retransmission.

Lemma no_retry_before P p T t s h s' x :
  inv P s -> only_polls P t s h s' -> pe s p = Some x ->
  (forall hs, p_handshake x = Some hs -> T <= hs_retry_at hs) ->
  forall c, In (c, Ok (RPolled (SendRetransmission p))) h -> T < c_now c + 2500.
Proof.
  intros I R. revert I x. induction R as [t s|t s c r s1 h s2 Eo V Ht E R IH]; intros I x X Hh cc Hin;
    [destruct Hin|].
  pose proof (exec_inv P _ _ _ _ I V E) as I1.
  assert (c_now c <= c_now cc) as Hle.
  { destruct Hin as [[= -> _]|Hin]; [lia|]. clear - R Hin.
    revert Hin. induction R as [|t s c0 r s1 h s2 Eo V Ht E R IH]; intros Hin; [destruct Hin|].
    destruct Hin as [[= -> _]|Hin]; [lia|]. specialize (IH Hin). lia. }
  destruct (Z_lt_ge_dec T (c_now c + 2500)) as [Hlt|Hge]; [lia|].
  assert (forall hs, p_handshake (drop_hs (c_now c) x) = Some hs -> T <= hs_retry_at hs) as Hd.
  { intros hs H. apply drop_hs_some in H. now apply Hh. }
  destruct (poll_cases P c s s1 r I V Eo E)
    as [(u & -> & _ & Q)|(r1 & q & y & y' & i & -> & Er & _ & Y & Y' & _ & K & _ & Oth)].
  - destruct Hin as [[=]|Hin]. destruct (Q p x X) as [_ X'].
    eapply (IH I1 (settle (c_now c) x)); eauto. now rewrite settle_hs.
  - destruct (Nat.eq_dec q p) as [->|N].
    + assert (y = x) as -> by congruence.
      destruct K as [(Ev & -> & ->)|[(Ev & -> & ->)|(Ev & -> & ->)]].
      * destruct Hin as [[=]|Hin]. eapply (IH I1 _ Y'); eauto.
      * destruct Hin as [[=]|Hin]. eapply (IH I1 _ Y'); eauto.
      * exfalso. apply event_retry in Ev. destruct Ev as (g & Hg & _ & Hr).
        specialize (Hh g Hg). unfold reached in Hr. lia.
    + destruct Hin as [[= _ ->]|Hin]; [cbn in Er; congruence|].
      destruct (Oth p x (not_eq_sym N) X) as [X1|[_ X1]].
      * eapply (IH I1 x); eauto.
      * eapply (IH I1 (settle (c_now c) x)); eauto. now rewrite settle_hs.
Qed.

(** So, as long as nothing but polls happens, half the back-off (less the grace of 2.5 ms)
    passes before the same peer is reported for retransmission again. *)
Theorem C14_spacing : forall P s c s1 p x hs h s' c',
  reachable P s -> valid c s -> c_op c = OPoll ->
  pe s p = Some x -> p_handshake x = Some hs ->
  exec P c s = (s1, Ok (RPolled (SendRetransmission p))) ->
  only_polls P (c_now c) s1 h s' ->
  In (c', Ok (RPolled (SendRetransmission p))) h ->
  c_now c + backoff (hs_tx_count hs) / 2 < c_now c' + 2500.
Proof.
  intros P s c s1 p x hs h s' c' Rs V Eo X Hh E R Hin.
  destruct (C14_retransmission P s c s1 p Rs V Eo E)
    as (y & g & y' & g' & d & Y & Hg & _ & _ & Y' & Hg' & Er & Hd & _).
  assert (y = x) as -> by congruence. assert (g = hs) as -> by congruence.
  destruct Rs as (s0 & h0 & Hi & R0).
  pose proof (run_inv P _ _ _ (initial_inv P _ Hi) R0) as I.
  pose proof (exec_inv P _ _ _ _ I V E) as I1.
  eapply (no_retry_before P p _ _ _ _ _ _ I1 R Y'); eauto.
  intros g0 Hg0. assert (g0 = g') as -> by congruence. lia.
Qed.
Print Assumptions C14_spacing.

(** The first retransmission of a message is scheduled like the others, with count 0: after
    [initiate_handshake]. *)
Theorem C14_first : forall P s c s' p tx m,
  reachable P s -> valid c s -> c_op c = OInitiate p tx -> exec P c s = (s', Ok (RSent m)) ->
  exists x h d, pe s' p = Some x /\ p_handshake x = Some h /\ hs_created h = c_now c /\
    hs_retry_at h = c_now c + d /\ 250000 <= d < 500000 /\ hs_tx_count h = 1%N.
Proof.
  intros P s c s' p tx m (s0 & h0 & Hi & R0) V Eo E.
  pose proof (run_inv P _ _ _ (initial_inv P _ Hi) R0) as I.
  pose proof (exec_step P c s s' _ I V E) as S. inversion S; subst; try congruence.
  - match goal with H : c_op c = OInitiate _ _ |- _ => rewrite Eo in H; injection H as -> -> end.
    match goal with R : st_rel _ _ _ _ _ |- _ => pose proof (st_rel_self _ _ _ _ _ R) as X end.
    eexists. eexists. exists (retransmit_delay 0 (c_jitter (c_coins c))).
    split; [exact X|]. split; [reflexivity|]. split; [reflexivity|]. split; [reflexivity|].
    split; [|reflexivity]. pose proof (C14_delay_bounds 0 (c_jitter (c_coins c)) ltac:(apply V)) as B.
    change (backoff 0) with 500000 in B. change (500000 / 2) with 250000 in B. lia.
Qed.
Print Assumptions C14_first.

(** The initiator of the example polls at 1.6 s, 2 s and 3 s: two retransmissions. *)
Definition r1 := Demo.mk (secs 2) x01 OPoll.
Definition t1 := Eval vm_compute in exec Demo.P r1 Demo.A2.
Definition r2 := Demo.mk (secs 3) x01 OPoll.
Definition t2 := Eval vm_compute in exec Demo.P r2 (fst t1).
Example C14_nonvacuous :
  exec Demo.P r1 Demo.A2 = t1 /\ snd t1 = Ok (RPolled (SendRetransmission 0)) /\
  exec Demo.P r2 (fst t1) = t2 /\ snd t2 = Ok (RPolled (SendRetransmission 0)) /\
  valid r1 Demo.A2 /\ only_polls Demo.P (c_now r1) (fst t1) [(r2, snd t2)] (fst t2).
Proof.
  split; [vm_compute; reflexivity|]. split; [reflexivity|]. split; [vm_compute; reflexivity|].
  split; [reflexivity|]. split; [split; [apply Demo.wf_coin|exact Logic.I]|].
  econstructor; [reflexivity|split; [apply Demo.wf_coin|exact Logic.I]|discriminate| |constructor].
  vm_compute; reflexivity.
Qed.

(** * C15 *)

(** The creation time of the biscuit key a biscuit names. *)
Definition named_created (s : srv) (b : bytes) : time :=
  match b with
  | [] => cs_created (s_bk0 s)
  | h :: _ => if N.testbit (b2n h) 7 then cs_created (s_bk1 s) else cs_created (s_bk0 s)
  end.

Lemma named_created_slot s b : named_created s b = cs_created (get_bk (nonce_slot b) s).
Proof. unfold named_created, nonce_slot, get_bk. destruct b; auto. now destruct (N.testbit _ _). Qed.

(** A key created at [t] is young at [now]: less than 300 s old (2.5 ms grace). *)
Definition young_key (now t : time) : Prop := 0 <= t /\ now + 2500 <= t + secs 300.

Lemma young_iff now st : bk_lifecycle now st = Young <-> young_key now (cs_created st).
Proof.
  unfold bk_lifecycle, lifecycle_of, bk_die_at, bk_retire_at, store_created_at, young_key.
  destruct (Z.ltb_spec (cs_created st) 0) as [H|H]; cbn [option_map].
  - split; [discriminate|lia].
  - unfold due, has_happened. change EVENT_GRACE with 2500. change BISCUIT_EPOCH with 300000000.
    change (secs 300) with 300000000.
    match goal with |- context [?a <? ?b] => destruct (Z.ltb_spec a b) end.
    + split; [discriminate|lia].
    + match goal with |- context [?a <? ?b] => destruct (Z.ltb_spec a b) end.
      * split; [discriminate|lia].
      * split; [lia|reflexivity].
Qed.

(** The chosen key is young, or was just made; the choice replaces no young key. *)
Lemma bk_choice_spec now c s :
  let s' := fst (bk_choice now c s) in let i := snd (bk_choice now c s) in
  s' = s /\ young_key now (cs_created (get_bk i s)) \/
  s' = set_bk i {| cs_created := now; cs_value := c_bkey c |} s /\
  ~ young_key now (cs_created (get_bk i s)) /\ ~ young_key now (cs_created (get_bk (negb i) s)) /\
  cs_created (get_bk i s) <= cs_created (get_bk (negb i) s).
Proof.
  unfold bk_choice. cbn zeta.
  assert (forall st, bk_lifecycle now st <> Young -> ~ young_key now (cs_created st)) as NY.
  { intros st N Y. now apply N, young_iff. }
  rewrite Z.geb_leb.
  destruct (Z.leb_spec (cs_created (s_bk1 s)) (cs_created (s_bk0 s))) as [H|H].
  - rewrite (proj2 (Z.ltb_ge _ _)) by lia.
    destruct (bk_lifecycle now (get_bk false s)) eqn:L;
      [| | |left; split; [reflexivity|]; now apply young_iff];
      (assert (~ young_key now (cs_created (s_bk0 s))) as N0 by (apply NY; cbn [get_bk] in L; congruence));
      right; cbn [fst snd get_bk negb]; (split; [reflexivity|]);
      (split; [unfold young_key in *; lia|]); split; [exact N0|lia|exact N0|lia|exact N0|lia].
  - rewrite (proj2 (Z.ltb_lt _ _)) by lia.
    destruct (bk_lifecycle now (get_bk true s)) eqn:L;
      [| | |left; split; [reflexivity|]; now apply young_iff];
      (assert (~ young_key now (cs_created (s_bk1 s))) as N1 by (apply NY; cbn [get_bk] in L; congruence));
      right; cbn [fst snd get_bk negb]; (split; [reflexivity|]);
      (split; [unfold young_key in *; lia|]); split; [exact N1|lia|exact N1|lia|exact N1|lia].
Qed.

(** The two key slots. *)
Definition slots (s : srv) : cookie_store * cookie_store := (s_bk0 s, s_bk1 s).
Definition fresh_key (now : time) (c : coins) : cookie_store :=
  {| cs_created := now; cs_value := c_bkey c |}.

(** What a message does to the slots: nothing, or one new key where no key was young. *)
Definition keyed (now : time) (c : coins) (s s' : srv) : Prop :=
  slots s' = slots s \/
  (~ young_key now (cs_created (s_bk0 s)) /\ ~ young_key now (cs_created (s_bk1 s)) /\
   ((slots s' = (fresh_key now c, s_bk1 s) /\ cs_created (s_bk0 s) <= cs_created (s_bk1 s)) \/
    (slots s' = (s_bk0 s, fresh_key now c) /\ cs_created (s_bk1 s) <= cs_created (s_bk0 s)))).

Lemma rest_slots s s' : rest s' = rest s -> slots s' = slots s.
Proof. intros H. destruct (rest_stores _ _ H) as (A & B & _). unfold slots. now rewrite A, B. Qed.

Section Keys.
Context (P : prims).

Lemma after_biscuit_keyed now c s : keyed now c s (after_biscuit now c s).
Proof.
  unfold keyed, after_biscuit. set (u := set_bctr _ s).
  pose proof (bk_choice_spec now c u) as H. cbn zeta in H.
  destruct H as [[-> _]|(-> & A & B & C)]; [now left|right].
  destruct (snd (bk_choice now c u)); cbn [get_bk negb] in *; split; auto.
Qed.

Lemma keyed_msgstep now c rx tx s s' r : msgstep P now c rx tx s s' r -> keyed now c s s'.
Proof.
  intros M. destruct M as [e|q x ck a e FT L T|q x ck FT L T CS
    |q x h ic core s1 FT L Hi Hp Hh Hs Hn Hc CS R
    |q x h ic core s1 FT L Hi Hp Hh Hs Hn Hc CS R
    |q x k' FT L EK Hp Hk Hm CS
    |e s1 s2 FT L EK F1 F2 K1 K2
    |s0 a q x bno core s1 e FT L EK HA K0 K1 HI SF R
    |s0 q x bno core s1 s2 FT L EK HA K0 K1 HI SF R CS R2
    |q x h u FT L Hi Hp Hh Hs Hn Hu CS Ht D
    |q x h u s1 pt FT L Hi Hp Hh Hs Hn Hu CS Ht D R
    |q x h mac v FT L Hi Hp Hd Hh Hm D
    |q x h mac v FT L Hi Hp Hd Hh Hm D];
    try apply after_biscuit_keyed; left; auto;
    try (apply rest_slots; exact (sr_rest _ _ _ _ _ R)).
  - rewrite (rest_slots _ _ (ic_failed_rest P _ _ _ _ F2)).
    now apply rest_slots, (ic_failed_rest P _ _ _ _ F1).
  - rewrite (rest_slots _ _ (sr_rest _ _ _ _ _ R)).
    destruct HA as [[_ ->]|[_ F]]; auto. now apply rest_slots, (ic_failed_rest P _ _ _ _ F).
  - rewrite (rest_slots _ _ (sr_rest _ _ _ _ _ R2)), (rest_slots _ _ (sr_rest _ _ _ _ _ R)).
    destruct HA as [[_ ->]|[_ F]]; auto. now apply rest_slots, (ic_failed_rest P _ _ _ _ F).
Qed.

Lemma cs_choice_slots now c s : slots (fst (cs_choice now c s)) = slots s.
Proof. destruct (cs_choice_frame now c s) as (_&_&_&A&B&_). unfold slots. now rewrite A, B. Qed.

(** What a poll does: erase each key that is 600 s old. *)
Definition old_key (now : time) (t : time) : Prop := 0 <= t /\ t + secs 600 < now + 2500.

Lemma due_bk now st : due_opt now (bk_die_at st) = true <-> old_key now (cs_created st).
Proof.
  unfold due_opt, bk_die_at, bk_retire_at, store_created_at, old_key.
  destruct (Z.ltb_spec (cs_created st) 0); cbn [option_map].
  - split; [discriminate|lia].
  - unfold due, has_happened. change EVENT_GRACE with 2500. change BISCUIT_EPOCH with 300000000.
    change (secs 600) with 600000000.
    match goal with |- context [?a <? ?b] => destruct (Z.ltb_spec a b) end;
      split; try discriminate; try reflexivity; lia.
Qed.

Lemma poll_slots c s s' r : inv P s -> valid c s -> c_op c = OPoll -> exec P c s = (s', r) ->
  slots s' = (if due_opt (c_now c) (bk_die_at (s_bk0 s)) then new_store (c_erase (c_coins c) 0) else s_bk0 s,
              if due_opt (c_now c) (bk_die_at (s_bk1 s)) then new_store (c_erase (c_coins c) 1) else s_bk1 s).
Proof.
  intros I V Eo E. destruct (exec_poll_step P c s s' r I V Eo E) as (r1 & -> & Ps).
  destruct (pollstep_pscan P _ _ _ _ _ I Ps) as (s2 & -> & S2).
  destruct (erase_keys_stores (c_now c) (c_coins c) s) as (E0 & E1 & _).
  assert (slots s2 = slots (erase_keys (c_now c) (c_coins c) s)) as J.
  { eapply (pscan_ind_inv P _ _ (fun t => slots t = slots (erase_keys (c_now c) (c_coins c) s)));
      [|exact S2|reflexivity].
    intros t p x t' r _ X PP J. destruct PP as [t' Ev R|t' Ev R|t' Ev R|t' Ev R _];
      rewrite (rest_slots _ _ (sr_rest _ _ _ _ _ R)); exact J. }
  change (slots (set_poll_off (next_off r1) s2)) with (slots s2).
  rewrite J. unfold slots. now rewrite E0, E1.
Qed.

Lemma keyed_exec c s s' r : inv P s -> valid c s -> exec P c s = (s', r) -> c_op c <> OPoll ->
  keyed (c_now c) (c_coins c) s s'.
Proof.
  intros I V E NP. pose proof (exec_step P c s s' r I V E) as S.
  inversion S as [psk pk a ds Eo|psk pk a ds Eo|q tx q' Eo|q tx x s1 Eo X Fr R
    |rx tx s1 r0 Eo M|rx tx host s1 r0 Eo M|s1 r0 Eo Ps|q tx r0 Eo N|q r0 Eo N]; subst;
    try (left; reflexivity); try contradiction.
  - left. apply rest_slots. exact (sr_rest _ _ _ _ _ R).
  - eapply keyed_msgstep; eauto.
  - pose proof (cs_choice_slots (c_now c) (c_coins c) s) as EB.
    assert (forall t, keyed (c_now c) (c_coins c) (fst (cs_choice (c_now c) (c_coins c) s)) t ->
      keyed (c_now c) (c_coins c) s t) as K.
    { intros t. unfold keyed. rewrite EB. unfold slots in EB. injection EB as -> ->. auto. }
    destruct M as [e|s1 r FT M|s1 r FT L CV M|e FT|i l FT L EL CV]; try (left; auto; fail).
    + eapply keyed_msgstep; eauto.
    + apply K. eapply keyed_msgstep; eauto.
Qed.
End Keys.

(** The biscuit in a RespHello opens with a key of this server that is young at the time of
    the call. *)
Theorem C15_issued_under_young_key : forall P s c rx s' r m,
  correct P -> reachable P s -> valid c s -> 0 <= c_now c -> received c = Some rx ->
  exec P c s = (s', r) -> replied r m -> is_type x82 m ->
  young_key (c_now c) (named_created s' (resp_biscuit m)) /\
  exists p x n, pe s p = Some x /\ resp_number P (p_alg x) s' m n.
Proof.
  intros P s c rx s' r m HP (s0 & h & I0 & R) V Hn Rc E Rp Ty.
  pose proof (run_inv P _ _ _ (initial_inv P _ I0) R) as I.
  split.
  2:{ destruct (answered_number P c rx s s' r m HP I V Rc E Rp Ty) as (_ & p & x & X & B).
      exists p, x. eexists. eauto. }
  assert (forall now c0 tx t t' r0 o, wf_coins c0 -> 0 <= now -> inv P t -> (1100 <= length tx)%nat ->
    msgstep P now c0 rx tx t t' r0 -> r0 = Ok {| mr_exchanged := o; mr_resp := Some m |} ->
    young_key now (named_created t' (resp_biscuit m))) as K.
  { intros now c0 tx t t' r0 o W Hnow It LT M Er.
    destruct M as [e|q x ck a e FT L T|q x ck FT L T CS
    |q x h' ic core s1 FT L Hi Hp Hh Hs Hno Hc CS R'
    |q x h' ic core s1 FT L Hi Hp Hh Hs Hno Hc CS R'
    |q x k' FT L EK Hp Hk Hm CS
    |e s1 s2 FT L EK F1 F2 K1 K2
    |u0 a q x bno core s1 e FT L EK HA K0 K1 HI SF R'
    |u0 q x bno core s1 s2 FT L EK HA K0 K1 HI SF R' CS R2
    |q x h' u FT L Hi Hp Hh Hs Hno Hu CS Ht D
    |q x h' u s1 pt FT L Hi Hp Hh Hs Hno Hu CS Ht D R'
    |q x h' mac v FT L Hi Hp Hd Hh Hm D
    |q x h' mac v FT L Hi Hp Hd Hh Hm D]; try discriminate Er;
    unfold handled in Er; injection Er as _ Er; subst m;
    try (exfalso; revert Ty; now apply commit_not).
    rewrite named_created_slot, (rh_msg_slot P) by (auto; first [apply (i_bctr P t It)|apply (wf_rx_ih rx L)]).
    unfold after_biscuit, biscuit_slot. set (u := set_bctr _ t).
    pose proof (bk_choice_spec now c0 u) as H. cbn zeta in H.
    destruct H as [[-> Y]|(-> & _)]; [exact Y|].
    destruct (snd (bk_choice now c0 u)); cbn [get_bk set_bk s_bk0 s_bk1 cs_created];
      unfold young_key; change (secs 300) with 300000000; lia. }
  destruct Rp as (o & ->).
  destruct (handled_msgstep P c rx s s' _ I V Rc E) as (tx & t & Ht & LT & [M|(FT & Es & _ & m' & Em & T')]).
  - destruct V as [W _]. destruct Ht as [->| ->].
    + eapply K; eauto.
    + eapply K; try exact M; eauto. exact (g_inv _ _ _ (cs_choice_good P _ _ _ I)).
  - exfalso. cbn [mr_resp] in Em. injection Em as ->. unfold is_type in *. congruence.
Qed.
Print Assumptions C15_issued_under_young_key.

(** No call touches a key that is young. *)
Theorem C15_young_key_kept : forall P s c s' r,
  reachable P s -> valid c s -> exec P c s = (s', r) ->
  (young_key (c_now c) (cs_created (s_bk0 s)) -> s_bk0 s' = s_bk0 s) /\
  (young_key (c_now c) (cs_created (s_bk1 s)) -> s_bk1 s' = s_bk1 s).
Proof.
  intros P s c s' r (s0 & h & I0 & R) V E.
  pose proof (run_inv P _ _ _ (initial_inv P _ I0) R) as I.
  assert ({c_op c = OPoll} + {c_op c <> OPoll}) as [Eo|Eo] by (destruct (c_op c); auto; right; discriminate).
  - pose proof (poll_slots P c s s' r I V Eo E) as H. unfold slots in H. injection H as -> ->.
    assert (forall st, young_key (c_now c) (cs_created st) -> due_opt (c_now c) (bk_die_at st) = false) as K.
    { intros st Y. destruct (due_opt _ _) eqn:D; auto. apply due_bk in D. unfold young_key, old_key in *.
      change (secs 300) with 300000000 in *. change (secs 600) with 600000000 in *. lia. }
    split; intros Y; now rewrite (K _ Y).
  - destruct (keyed_exec P c s s' r I V E Eo) as [H|(N0 & N1 & _)]; [|tauto].
    unfold slots in H. injection H as -> ->. auto.
Qed.
Print Assumptions C15_young_key_kept.

(** When a new key is made, it replaces the older of the two. *)
Theorem C15_older_key_replaced : forall P s c s' r,
  reachable P s -> valid c s -> exec P c s = (s', r) -> c_op c <> OPoll -> slots s' <> slots s ->
  (s_bk0 s' = fresh_key (c_now c) (c_coins c) /\ s_bk1 s' = s_bk1 s /\
     cs_created (s_bk0 s) <= cs_created (s_bk1 s)) \/
  (s_bk1 s' = fresh_key (c_now c) (c_coins c) /\ s_bk0 s' = s_bk0 s /\
     cs_created (s_bk1 s) <= cs_created (s_bk0 s)).
Proof.
  intros P s c s' r (s0 & h & I0 & R) V E Eo N.
  pose proof (run_inv P _ _ _ (initial_inv P _ I0) R) as I.
  destruct (keyed_exec P c s s' r I V E Eo) as [H|(N0 & N1 & [[H L]|[H L]])]; [congruence| |];
    unfold slots in H; injection H as -> ->; auto.
Qed.
Print Assumptions C15_older_key_replaced.

(** A poll replaces each key that is 600 s old by a random one that counts as never made;
    it leaves the others alone. *)
Theorem C15_old_key_erased : forall P s c s' r,
  reachable P s -> valid c s -> c_op c = OPoll -> exec P c s = (s', r) ->
  (old_key (c_now c) (cs_created (s_bk0 s)) ->
     cs_created (s_bk0 s') < 0 /\ cs_value (s_bk0 s') = c_erase (c_coins c) 0) /\
  (old_key (c_now c) (cs_created (s_bk1 s)) ->
     cs_created (s_bk1 s') < 0 /\ cs_value (s_bk1 s') = c_erase (c_coins c) 1) /\
  (~ old_key (c_now c) (cs_created (s_bk0 s)) -> s_bk0 s' = s_bk0 s) /\
  (~ old_key (c_now c) (cs_created (s_bk1 s)) -> s_bk1 s' = s_bk1 s).
Proof.
  intros P s c s' r (s0 & h & I0 & R) V Eo E.
  pose proof (run_inv P _ _ _ (initial_inv P _ I0) R) as I.
  pose proof (poll_slots P c s s' r I V Eo E) as H. unfold slots in H. injection H as -> ->.
  assert (forall st, ~ old_key (c_now c) (cs_created st) -> due_opt (c_now c) (bk_die_at st) = false) as K.
  { intros st N. destruct (due_opt _ _) eqn:D; auto. apply due_bk in D. contradiction. }
  split; [|split; [|split]]; intros O;
    try (apply due_bk in O; rewrite O; split; reflexivity); now rewrite (K _ O).
Qed.
Print Assumptions C15_old_key_erased.

(** The responder of the example answers at 2 s with a new key; that key is young then and
    old at 700 s, when a poll erases it. *)
Example C15_nonvacuous :
  replied (snd Demo.rB2) Demo.m2 /\ is_type x82 Demo.m2 /\
  young_key (c_now Demo.cB2) (named_created Demo.B2 (resp_biscuit Demo.m2)) /\
  old_key (secs 700) (named_created Demo.B2 (resp_biscuit Demo.m2)) /\
  ~ young_key (c_now Demo.cB2) (named_created Demo.B1 (resp_biscuit Demo.m2)).
Proof.
  split; [eexists; reflexivity|]. split; [reflexivity|].
  split; [split; vm_compute; discriminate|].
  split; [split; [vm_compute; discriminate|reflexivity]|].
  intros [H _]. vm_compute in H. now apply H.
Qed.
