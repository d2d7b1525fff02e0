(** C115: a call of [set_psk] of the broker client returns. *)
From Verif Require Import Base Wire Lpe PLpe Broker PBroker Stall.

(** * Specification *)

(** A write that takes something. *)
Definition productive (v : wr_ev) : bool := match v with Accept (S _) => true | _ => false end.
Definition gains (vs : list wr_ev) : nat := length (filter productive vs).
(** A write that fails for good. *)
Definition fatal (v : wr_ev) : bool := match v with WFail KInterrupted | WFail KWouldBlock => false | WFail _ => true | Accept _ => false end.
(** The bytes of the requests that have been handed over. *)
Definition handed (s : bstate) : bytes := concat (map frame (bs_sent s)).

(** * Lemmas *)

Definition idle (v : wr_ev) : bool := negb (productive v) && negb (fatal v).

Lemma flush_idle vs : forall e pend, eok e pend -> forallb idle vs = true ->
  exists e', bflush vs e = (e', [], Ok tt) /\ eok e' pend.
Proof.
  induction vs as [|v vs IH]; intros e pend K F.
  - cbn [bflush]. destruct (write_ok e pend (WFail KWouldBlock) K) as (A & B). destruct pend as [|b p].
    + rewrite A by reflexivity. eauto.
    + rewrite B by discriminate. eauto.
  - cbn [forallb] in F. apply andb_true_iff in F as (F0 & F). cbn [bflush].
    destruct (write_ok e pend v K) as (A & B). destruct pend as [|b p].
    + rewrite A by (destruct v; reflexivity). eauto.
    + specialize (B ltac:(discriminate)). destruct v as [[|k]|[]]; try discriminate F0.
      * destruct B as (e1 & o & K1 & Eo & Lo & _ & _ & W). assert (length o = 0) as Z by lia. apply length_zero_iff_nil in Z.
        subst o. rewrite W. eauto.
      * rewrite B. apply IH; assumption.
      * rewrite B. eauto.
Qed.
Lemma loop_idle vs : forall e b p, eok e (b :: p) -> forallb idle vs = true ->
  exists e', bflush_loop vs e = (e', [], None) /\ eok e' (b :: p).
Proof.
  induction vs as [|v vs IH]; intros e b p K F; cbn [bflush_loop]; rewrite (exhausted_ok _ _ K); [eauto|].
  cbn [forallb] in F. apply andb_true_iff in F as (F0 & F).
  destruct (write_ok e (b :: p) v K) as (_ & B). specialize (B ltac:(discriminate)). destruct v as [[|k]|[]]; try discriminate F0.
  - destruct B as (e1 & o & K1 & Eo & Lo & _ & _ & W). assert (length o = 0) as Z by lia. apply length_zero_iff_nil in Z.
    subst o. rewrite W. cbn [length skipn] in K1. destruct (IH _ _ _ K1 F) as (e2 & -> & K2). eauto.
  - rewrite B. destruct (IH _ _ _ K F) as (e2 & -> & K2). eauto.
  - rewrite B. destruct (IH _ _ _ K F) as (e2 & -> & K2). eauto.
Qed.

(** A loop that is still running has met no failure, and not enough room. *)
Lemma loop_running vs : forall e pend e' out, eok e pend -> bflush_loop vs e = (e', out, None) ->
  existsb fatal vs = false /\ gains vs < length pend /\ exists b left, pend = out ++ b :: left /\ eok e' (b :: left).
Proof.
  induction vs as [|v vs IH]; intros e pend e' out K F; cbn [bflush_loop] in F; rewrite (exhausted_ok _ _ K) in F.
  - destruct pend as [|b p]; [discriminate F|]. assert (e' = e /\ out = []) as (-> & ->) by (split; congruence).
    split; [reflexivity|]. split; [cbn; lia|]. exists b, p. auto.
  - destruct pend as [|b p]; [discriminate F|].
    destruct (write_ok e (b :: p) v K) as (_ & B). specialize (B ltac:(discriminate)). destruct v as [k|k].
    + destruct B as (e1 & o & K1 & Eo & Lo & Go & _ & W). rewrite W in F.
      destruct (bflush_loop vs e1) as [[e2 o2] r2] eqn:F2. assert (e' = e2 /\ out = o ++ o2 /\ r2 = None) as (-> & -> & ->) by (repeat split; congruence).
      destruct (IH _ _ _ _ K1 F2) as (N & G & b' & l & El & K2).
      split; [exact N|]. rewrite skipn_length in G. split.
      * unfold gains in *. cbn [filter]. destruct k as [|k]; cbn [productive length]; [cbn [length] in G; lia|]. specialize (Go ltac:(lia)). cbn [length] in *. lia.
      * exists b', l. split; [rewrite <- app_assoc, <- El; rewrite Eo at 1; symmetry; apply firstn_skipn|exact K2].
    + rewrite B in F. destruct k; try discriminate F;
        destruct (bflush_loop vs e) as [[e2 o2] r2] eqn:F2; cbn [List.app] in F; assert (e' = e2 /\ out = o2 /\ r2 = None) as (-> & -> & ->) by (repeat split; congruence);
        exact (IH _ _ _ _ K F2).
Qed.

(** What a failing write reports is what the system said. *)
Lemma flush_error vs : forall e pend e' out y, eok e pend -> bflush vs e = (e', out, Err y) ->
  exists k, y = BWrite k /\ In (WFail k) vs /\ fatal (WFail k) = true.
Proof.
  induction vs as [|v vs IH]; intros e pend e' out y K F; cbn [bflush] in F.
  - destruct (write_ok e pend (WFail KWouldBlock) K) as (A & B). destruct pend as [|b p].
    + rewrite A in F by reflexivity. discriminate F.
    + rewrite B in F by discriminate. discriminate F.
  - destruct (write_ok e pend v K) as (A & B). destruct pend as [|b p].
    + rewrite A in F by (destruct v; reflexivity). discriminate F.
    + specialize (B ltac:(discriminate)). destruct v as [k|k].
      * destruct B as (e1 & o & _ & _ & _ & _ & _ & W). rewrite W in F. discriminate F.
      * rewrite B in F. destruct k; try discriminate F;
          [destruct (IH _ _ _ _ _ K F) as (k & E & H1 & H2); exists k; cbn [In]; auto|..];
          (injection F as _ _ <-; eexists; split; [reflexivity|]; split; [now left|reflexivity]).
Qed.
Lemma loop_error vs : forall e pend e' out y, eok e pend -> bflush_loop vs e = (e', out, Some (Err y)) ->
  exists k, y = BWrite k /\ In (WFail k) vs /\ fatal (WFail k) = true.
Proof.
  induction vs as [|v vs IH]; intros e pend e' out y K F; cbn [bflush_loop] in F; rewrite (exhausted_ok _ _ K) in F.
  - destruct pend; discriminate F.
  - destruct pend as [|b p]; [discriminate F|].
    destruct (write_ok e (b :: p) v K) as (_ & B). specialize (B ltac:(discriminate)). destruct v as [k|k].
    + destruct B as (e1 & o & K1 & _ & _ & _ & _ & W). rewrite W in F.
      destruct (bflush_loop vs e1) as [[e2 o2] r2] eqn:F2. assert (r2 = Some (Err y)) as -> by congruence.
      destruct (IH _ _ _ _ _ K1 F2) as (k' & E & H1 & H2). exists k'. cbn [In]. auto.
    + rewrite B in F. destruct k.
      1,2: destruct (bflush_loop vs e) as [[e2 o2] r2] eqn:F2; assert (r2 = Some (Err y)) as -> by congruence;
        destruct (IH _ _ _ _ _ K F2) as (k' & E & H1 & H2); exists k'; cbn [In]; auto.
      1,2: injection F as _ _ <-; eexists; split; [reflexivity|]; split; [now left|reflexivity].
Qed.

Section Stall.
Context (utf8 : bytes -> bool).

(** Of the bytes handed over those not yet written; the state of the encoder. *)
Lemma reached ops src s rs : Forall op_typed ops -> bsteps utf8 ops (bstart src) = (s, rs) ->
  exists pend, eok (b_enc (bs_client s)) pend /\ bs_out s ++ pend = handed s /\ length (e_buf (b_enc (bs_client s))) = BBUF /\
    length pend <= 332.
Proof.
  intros T B. destruct (steps_inv utf8 _ _ _ _ _ _ _ T (binv_start src) B) as (done & pend & data & _ & I & _).
  exists pend. split; [apply (bi_enc _ _ _ _ I)|]. split; [apply (bi_out _ _ _ _ I)|]. split; [apply (bi_buf _ _ _ _ I)|].
  destruct (bi_last _ _ _ _ I) as [->|(pre & l & m & Z & Fr)]; [cbn; lia|].
  pose proof (bi_len _ _ _ _ I) as Ln. rewrite Z in Ln. apply Forall_app in Ln as (_ & Ln). inversion Ln as [|? ? Lm _]; subst.
  apply (f_equal (@length byte)) in Fr. rewrite frame_length, app_length in Fr. lia.
Qed.

Lemma wire_le c : typed c -> length (g_iface c) < 256 -> length (wire c) = 324.
Proof. intros (A & B) L. unfold wire. rewrite !app_length, le_enc_length, zeros_length, A, B. cbn [length]. lia. Qed.

(** * C115 *)

(** A call that does not return: some bytes of earlier requests were pending and still are, no write failed for good, and the system took
    bytes in fewer writes than there were bytes pending, at most 332.  The new request was not handed over.
    Missing: that the call returns whatever the system does, see [C115_stalls_refuted]. *)
Theorem C115_returns_partial : forall ops src s rs g v s', Forall op_typed ops -> typed g ->
  bsteps utf8 ops (bstart src) = (s, rs) -> bstep utf8 (BSet g v) s = (s', None) ->
  (exists b later, bs_out s' ++ b :: later = handed s) /\ bs_sent s' = bs_sent s /\
  sv_flags v = true /\ existsb fatal (sv_block v) = false /\
  gains (sv_block v) < length (handed s) - length (bs_out s) <= 332.
Proof.
  intros ops src s rs g v s' T Tg B St. destruct (reached _ _ _ _ T B) as (pend & K & Eo & Lb & Lp).
  rewrite <- Eo. cbn [bstep] in St. unfold mio_set_psk in St. rewrite (request_ok utf8 bio_err g Tg) in St.
  destruct (utf8 (g_iface g)); [|discriminate St].
  destruct (Nat.ltb_spec (length (g_iface g)) 256) as [L|L]; [|discriminate St].
  destruct (send_msg v (wire g) (bs_client s)) as [[[b' out] put] r] eqn:Sm.
  assert (r = None) as -> by (destruct r; [discriminate St|reflexivity]).
  assert (Es : s' = {| bs_client := b'; bs_in := bs_in s; bs_out := bs_out s ++ out;
    bs_sent := bs_sent s ++ match (if put then Some (wire g) else None) with Some m => [m] | None => [] end;
    bs_reports := bs_reports s |}) by congruence.
  clear St. unfold send_msg in Sm. destruct (flush_blocking v (b_enc (bs_client s))) as [[e1 o1] r1] eqn:Fb.
  assert (r1 = None /\ put = false /\ out = o1) as (-> & -> & ->).
  { destruct r1 as [[u|y|]|]; try discriminate Sm.
    - exfalso. destruct (exhausted e1) as [[]|x|]; try discriminate Sm.
      destruct (restart_with _ _) as [e2 [u2|y|]]; try discriminate Sm.
      destruct (bflush (sv_last v) e2) as [[e3 o3] r3]. discriminate Sm.
    - repeat split; congruence. }
  clear Sm. unfold flush_blocking in Fb. destruct (bflush (sv_first v) (b_enc (bs_client s))) as [[e2 o2] r2] eqn:F1.
  destruct (bflush_ok _ _ _ _ _ _ K F1) as (l2 & P2 & K2 & _ & _ & Q2).
  destruct r2 as [u|y|]; [|discriminate Fb|destruct Q2].
  rewrite (exhausted_ok _ _ K2) in Fb. destruct l2 as [|b l2]; [discriminate Fb|].
  destruct (sv_flags v); [|discriminate Fb].
  destruct (bflush_loop (sv_block v) e2) as [[e3 o3] r3] eqn:F2. assert (r3 = None /\ o1 = o2 ++ o3) as (-> & ->) by (split; congruence).
  destruct (loop_running _ _ _ _ _ K2 F2) as (N & G & b3 & l3 & E3 & _).
  subst s'. cbn [bs_out bs_sent]. rewrite app_nil_r. split.
  - exists b3, l3. rewrite P2, E3, <- !app_assoc. reflexivity.
  - split; [reflexivity|]. split; [reflexivity|]. split; [exact N|]. rewrite app_length, P2, app_length in *. lia.
Qed.

(** So if all earlier requests are written, a call always returns; and so it does if the system goes on taking bytes. *)
Corollary C115_returns_idle : forall ops src s rs g v s' r, Forall op_typed ops -> typed g ->
  bsteps utf8 ops (bstart src) = (s, rs) -> bstep utf8 (BSet g v) s = (s', r) ->
  bs_out s = handed s \/ 332 <= gains (sv_block v) \/ existsb fatal (sv_block v) = true \/ sv_flags v = false -> r <> None.
Proof.
  intros ops src s rs g v s' r T Tg B St H ->. destruct (C115_returns_partial _ _ _ _ _ _ _ T Tg B St) as (_ & _ & A & C & D).
  destruct H as [H|[H|[H|H]]]; try congruence; [rewrite H in D|]; lia.
Qed.

(** The call fails, and the request is not handed over, if the flags cannot be set while bytes are pending. *)
Theorem C115_flags : forall ops src s rs g v, Forall op_typed ops -> typed g -> utf8 (g_iface g) = true -> length (g_iface g) < 256 ->
  bsteps utf8 ops (bstart src) = (s, rs) -> bs_out s <> handed s -> forallb idle (sv_first v) = true -> sv_flags v = false ->
  exists s', bstep utf8 (BSet g v) s = (s', Some (Err (SIo BFlags))) /\ bs_sent s' = bs_sent s /\ bs_out s' = bs_out s.
Proof.
  intros ops src s rs g v T Tg U L B Ne F1 Fl. destruct (reached _ _ _ _ T B) as (pend & K & Eo & _).
  destruct pend as [|b p]; [rewrite app_nil_r in Eo; contradiction|].
  cbn [bstep]. unfold mio_set_psk. rewrite (request_ok utf8 bio_err g Tg), U. apply Nat.ltb_lt in L as ->.
  unfold send_msg, flush_blocking. destruct (flush_idle _ _ _ K F1) as (e1 & -> & K1). rewrite (exhausted_ok _ _ K1), Fl.
  cbn [option_map]. eexists. split; [reflexivity|]. cbn [bs_sent bs_out]. now rewrite !app_nil_r.
Qed.

(** An error of a write that the call returns is one the system reported in it. *)
Theorem C115_errors : forall ops src s rs g v s' y, Forall op_typed ops -> typed g ->
  bsteps utf8 ops (bstart src) = (s, rs) -> bstep utf8 (BSet g v) s = (s', Some (Err (SIo y))) ->
  (y = BFlags /\ sv_flags v = false) \/
  exists k, y = BWrite k /\ fatal (WFail k) = true /\ In (WFail k) (sv_first v ++ sv_block v ++ sv_last v).
Proof.
  intros ops src s rs g v s' y T Tg B St. destruct (reached _ _ _ _ T B) as (pend & K & Eo & Lb & Lp).
  cbn [bstep] in St. unfold mio_set_psk in St. rewrite (request_ok utf8 bio_err g Tg) in St.
  destruct (utf8 (g_iface g)); [|discriminate St].
  destruct (Nat.ltb_spec (length (g_iface g)) 256) as [L|L]; [|discriminate St].
  destruct (send_msg v (wire g) (bs_client s)) as [[[b' out] put] r] eqn:Sm.
  assert (r = Some (Err y)) as -> by (destruct r as [[u|y'|]|]; cbn [option_map] in St; congruence). clear St.
  assert (Z : forall l k, In (WFail k) l -> forall a b, In (WFail k) (a ++ l ++ b)).
  { intros l k H a b. apply in_or_app. right. apply in_or_app. now left. }
  unfold send_msg in Sm. destruct (flush_blocking v (b_enc (bs_client s))) as [[e1 o1] r1] eqn:Fb.
  destruct (blocking_ok _ _ _ _ _ _ K Fb) as (l1 & P1 & K1 & L1 & Q1).
  destruct r1 as [[u|y'|]|].
  - subst l1. rewrite (exhausted_ok _ _ K1) in Sm.
    assert (BF : (N.of_nat BBUF < 2 ^ 64)%N) by (vm_compute; reflexivity).
    pose proof (wire_le g Tg L) as Lw. assert (LB : 324 <= BBUF) by (unfold BBUF; lia).
    destruct (load_ok (wire g) e1 ltac:(lia) ltac:(lia)) as (e2 & Ld & K2 & L2). unfold load_message in Ld. rewrite Ld in Sm.
    destruct (bflush (sv_last v) e2) as [[e3 o3] r3] eqn:F3. assert (r3 = Err y) as -> by congruence.
    destruct (flush_error _ _ _ _ _ _ K2 F3) as (k & -> & H1 & H2). right. exists k. split; [reflexivity|]. split; [exact H2|].
    apply in_or_app. right. apply in_or_app. now right.
  - assert (y' = y) as -> by congruence. clear Sm. unfold flush_blocking in Fb.
    destruct (bflush (sv_first v) (b_enc (bs_client s))) as [[e2 o2] r2] eqn:F1.
    destruct (bflush_ok _ _ _ _ _ _ K F1) as (l2 & P2 & K2 & _ & _ & Q2).
    destruct r2 as [u|y2|].
    + rewrite (exhausted_ok _ _ K2) in Fb. destruct l2 as [|b l2]; [discriminate Fb|].
      destruct (sv_flags v); [|left; split; congruence].
      destruct (bflush_loop (sv_block v) e2) as [[e3 o3] r3] eqn:F2. assert (r3 = Some (Err y)) as -> by congruence.
      destruct (loop_error _ _ _ _ _ _ K2 F2) as (k & -> & H1 & H2). right. exists k. auto.
    + assert (y2 = y) as -> by congruence. destruct (flush_error _ _ _ _ _ _ K F1) as (k & -> & H1 & H2). right. exists k.
      split; [reflexivity|]. split; [exact H2|]. apply in_or_app. now left.
    + destruct Q2.
  - destruct Q1.
  - discriminate Sm.
Qed.

(** The loop is meant to wait in the kernel: "Flushing in blocking mode!".  The socket stays as it is. *)
Theorem C115_mode_refuted : forall k, during k = k /\ after k = k.
Proof. intros [[] n]; split; reflexivity. Qed.

(** Full property: the call returns.  With bytes pending it does not return for as long as the socket takes nothing, and on the
    socket, non-blocking as it was, that shows in any number of writes that would block. *)
Theorem C115_stalls_refuted : forall ops src s rs g k, Forall op_typed ops -> typed g ->
  utf8 (g_iface g) = true -> length (g_iface g) < 256 ->
  bsteps utf8 ops (bstart src) = (s, rs) -> bs_out s <> handed s -> k_nonblock k = true ->
  forall n, exists v s', length (sv_block v) = n /\ Forall (possible (during k)) (sv_block v) /\
    bstep utf8 (BSet g v) s = (s', None) /\ bs_out s' = bs_out s /\ bs_sent s' = bs_sent s.
Proof.
  intros ops src s rs g k T Tg U L B Ne Hk n. destruct (reached _ _ _ _ T B) as (pend & K & Eo & _).
  destruct pend as [|b p]; [rewrite app_nil_r in Eo; contradiction|].
  exists {| sv_first := []; sv_flags := true; sv_block := repeat (WFail KWouldBlock) n; sv_last := [] |}.
  cbn [sv_block]. rewrite (proj1 (C115_mode_refuted k)).
  assert (F2 : forallb idle (repeat (WFail KWouldBlock) n) = true).
  { apply forallb_forall. intros x Hx. now apply repeat_spec in Hx as ->. }
  cbn [bstep]. unfold mio_set_psk. rewrite (request_ok utf8 bio_err g Tg), U. apply Nat.ltb_lt in L as ->.
  unfold send_msg, flush_blocking. cbn [sv_first sv_flags sv_block].
  destruct (flush_idle [] _ _ K eq_refl) as (e1 & -> & K1). rewrite (exhausted_ok _ _ K1).
  destruct (loop_idle _ _ _ _ K1 F2) as (e2 & -> & K2). cbn [option_map].
  eexists. split; [apply repeat_length|]. split; [|split; [reflexivity|]; cbn [bs_out bs_sent]; now rewrite !app_nil_r].
  apply Forall_forall. intros x _ _. exact Hk.
Qed.

(** Such a state is what every successful call leaves behind: after it, the next call depends on the broker. *)
Theorem C115_second_call_refuted : forall ops src s rs g v s1 g2 k, Forall op_typed ops -> typed g ->
  bsteps utf8 ops (bstart src) = (s, rs) -> ~ In None rs -> bstep utf8 (BSet g v) s = (s1, Some (Ok tt)) ->
  typed g2 -> utf8 (g_iface g2) = true -> length (g_iface g2) < 256 -> k_nonblock k = true ->
  forall n, exists v2 s2, length (sv_block v2) = n /\ Forall (possible (during k)) (sv_block v2) /\
    bstep utf8 (BSet g2 v2) s1 = (s2, None).
Proof.
  intros ops src s rs g v s1 g2 k T Tg B Nn St T2 U L Hk n.
  pose proof (C67_refuted utf8 _ _ _ _ _ _ _ T Tg B St) as Ne.
  assert (B1 : bsteps utf8 (ops ++ [BSet g v]) (bstart src) = (s1, rs ++ [Some (Ok tt)])).
  { revert B Nn St. generalize (bstart src). clear. revert rs. induction ops as [|o ops IH]; intros rs t B Nn St.
    - cbn [bsteps] in B. assert (t = s /\ rs = []) as (-> & ->) by (split; congruence). cbn [bsteps List.app]. now rewrite St.
    - cbn [bsteps List.app] in *. destruct (bstep utf8 o t) as [t1 [r|]].
      + destruct (bsteps utf8 ops t1) as [t2 rs2] eqn:E. assert (t2 = s /\ rs = Some r :: rs2) as (-> & ->) by (split; congruence).
        rewrite (IH rs2 t1 E); [reflexivity| |exact St]. intros X. apply Nn. now right.
      + exfalso. apply Nn. assert (rs = [None]) as -> by congruence. now left. }
  assert (T' : Forall op_typed (ops ++ [BSet g v])) by (apply Forall_app; split; [exact T|constructor; [exact Tg|constructor]]).
  destruct (C115_stalls_refuted _ _ _ _ g2 k T' T2 U L B1 Ne Hk n) as (v2 & s2 & A & C & D & _). eauto 10.
Qed.
End Stall.
Print Assumptions C115_returns_partial.
Print Assumptions C115_returns_idle.
Print Assumptions C115_flags.
Print Assumptions C115_errors.
Print Assumptions C115_mode_refuted.
Print Assumptions C115_stalls_refuted.
Print Assumptions C115_second_call_refuted.

Module Example115.
(** A first call succeeds and leaves 324 bytes pending.  Then: one that waits, one that waits, is interrupted and goes on, one that fails. *)
Definition g : bconfig := {| g_iface := [x77; x67; x30]; g_peer := repeat x05 32; g_psk := repeat x09 32; g_extra := [] |}.
Definition any : bytes -> bool := fun _ => true.
Definition v1 : send_ev := {| sv_first := []; sv_flags := true; sv_block := []; sv_last := [Accept 4000] |}.
Definition wait : send_ev := {| sv_first := [Accept 10]; sv_flags := true; sv_block := [WFail KWouldBlock; Accept 20; WFail KInterrupted]; sv_last := [] |}.
Definition go : send_ev := {| sv_first := []; sv_flags := true; sv_block := [WFail KWouldBlock; Accept 20; WFail KInterrupted; Accept 400]; sv_last := [] |}.
Definition fails : send_ev := {| sv_first := []; sv_flags := true; sv_block := [WFail KWouldBlock; WFail KOther]; sv_last := [] |}.
Example C115_nonvacuous :
  let s := fst (bstep any (BSet g v1) (bstart [])) in
  snd (bstep any (BSet g v1) (bstart [])) = Some (Ok tt) /\ bs_out s <> handed s /\
  snd (bstep any (BSet g wait) s) = None /\
  snd (bstep any (BSet g go) s) = Some (Ok tt) /\
  snd (bstep any (BSet g fails) s) = Some (Err (SIo (BWrite KOther))).
Proof. cbn zeta. split; [vm_compute; reflexivity|]. split; [vm_compute; discriminate|]. vm_compute. auto. Qed.
End Example115.
