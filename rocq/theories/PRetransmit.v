(** C48: a retransmission repeats the last message sent to the peer. *)
From Verif Require Import Base ConstTime Prims HashDomains Wire Server Protocol Wp Inv Rules Calls PollRules System Trans Spec Transcript Forward Demo PReplay PPoll PNotice.

(** * The last message an initiator sent, read off the history of calls *)

(** The handshake message for peer [p] that a call hands out: the InitHello returned by
    [initiate_handshake], or the InitConf returned when a RespHello completes an exchange. *)
Definition sends (p : nat) (c : call) (r : res err outcome) : option bytes :=
  match c_op c, r with
  | OInitiate q _, Ok (RSent m) => if Nat.eqb q p then Some m else None
  | (OMsg _ _ | OLoad _ _ _), Ok (RHandled {| mr_exchanged := Some q; mr_resp := Some m |}) =>
      if Nat.eqb q p then (match m with x83 :: _ => Some m | _ => None end) else None
  | _, _ => None
  end.

Fixpoint last_sent_from (p : nat) (acc : option bytes) (h : list (call * res err outcome)) : option bytes :=
  match h with
  | [] => acc
  | (c, r) :: h' =>
      last_sent_from p (match sends p c r with Some m => Some m | None => acc end) h'
  end.
Definition last_sent (p : nat) (h : list (call * res err outcome)) : option bytes :=
  last_sent_from p None h.

Section Ghost.
Context (P : prims).

(** The handshake [h] holds the message [m]. *)
Definition holds (h : ihs) (m : bytes) : Prop :=
  hs_tx_len h = length m /\ firstn (length m) (hs_tx_buf h) = m /\
  slice 4 4 m = hs_sid h /\
  (is_type x81 m /\ length m = 1060 \/
   is_type x83 m /\ length m = 176 /\ hs_next h = ExpRespConf).

Definition ghost (p : nat) (s : srv) (acc : option bytes) : Prop :=
  forall x h, pe s p = Some x -> p_handshake x = Some h -> exists m, acc = Some m /\ holds h m.

Lemma holds_cookie h m st : holds h m -> holds (set_hs_cookie st h) m.
Proof. intros (A & B & C & D). unfold holds. auto. Qed.
Lemma holds_retry h m t n : holds h m -> holds (set_retry t n h) m.
Proof. intros (A & B & C & D). unfold holds. auto. Qed.
Lemma holds_erased h m : holds h m -> holds (erased h) m.
Proof.
  intros (A & B & C & D). unfold holds. split; [exact A|]. split; [exact B|]. split; [exact C|].
  destruct D as [D|(D & E & _)]; auto.
Qed.

Lemma cpy_min_prefix m buf : length m <= length buf -> firstn (length m) (cpy_min m buf) = m.
Proof.
  intros L. unfold cpy_min. rewrite Nat.min_l by lia. rewrite firstn_all, firstn_app, firstn_all.
  rewrite Nat.sub_diag, firstn_O. apply app_nil_r.
Qed.

Lemma holds_stored now c m h : length m <= length (hs_tx_buf h) ->
  slice 4 4 m = hs_sid h ->
  (is_type x81 m /\ length m = 1060 \/
   is_type x83 m /\ length m = 176 /\ hs_next h = ExpRespConf) ->
  holds (stored now c m h) m.
Proof.
  intros L Sd K. unfold holds, stored. cbn [set_retry set_tx hs_tx_len hs_tx_buf hs_next].
  split; [reflexivity|]. split; [now apply cpy_min_prefix|]. split; [exact Sd|exact K].
Qed.

Lemma ih_msg_holds now c s x tx : wf_coins c -> 1100 <= length tx ->
  holds (stored now c (ih_msg P now c s x tx) (ini_hs P now c s x)) (ih_msg P now c s x tx).
Proof.
  intros W T. assert (env_len IH_LEN <= length tx) as T' by (unfold env_len, IH_LEN; lia).
  pose proof (ih_msg_len P now c s x tx W T') as L. change (env_len IH_LEN) with 1060 in L.
  assert (length (ser_ih (fst (ih_compute P s x c))) = IH_LEN) as Ls
    by (apply ser_ih_len, ih_compute_wf, W).
  apply holds_stored.
  - cbn [ini_hs hs_tx_buf]. rewrite zeros_length, L. unfold MAX_MESSAGE_LEN. lia.
  - unfold ih_msg. pose proof (commit_slice P (ins_hs (ini_hs P now c s x) x) MInitHello IH_LEN
      (ser_ih (fst (ih_compute P s x c))) tx 0 4 Ls) as E. cbn [plus] in E. rewrite E;
      [|exact T'|unfold IH_LEN; lia].
    unfold ser_ih. rewrite slice_take; [apply ih_compute_sid|].
    apply (ih_compute_wf P s x c W).
  - left. split; [|exact L]. unfold ih_msg. apply (commit_head P _ MInitHello).
Qed.

Lemma ic_msg_holds now c x h ic core s rx tx :
  length (hs_tx_buf h) = 2500 -> length rx = 1100 -> 1100 <= length tx ->
  hs_sid h = rh_sidi (parse_rh (env_payload RH_LEN rx)) ->
  handle_rh_compute P s h (parse_rh (env_payload RH_LEN rx)) = Some (ic, core) ->
  holds (stored now c (ic_msg P now x h core ic tx) (erased h)) (ic_msg P now x h core ic tx).
Proof.
  intros Lb L T Hs Hc. pose proof (wf_rx_rh rx L) as WF.
  assert (wf_ic ic /\ ic_sidi ic = hs_sid h) as [W Es].
  { revert Hc. unfold handle_rh_compute. destruct (decrypt_and_mix _ _ _ _) as [[? ck]|]; [|discriminate].
    unfold encrypt_and_mix. intros E. injection E as <- _. split; [|now rewrite Hs].
    destruct WF as (W1 & W2 & W3 & W4 & W5 & W6).
    repeat split; cbn [ic_sidi ic_sidr ic_biscuit ic_auth]; auto. apply aead_enc_len. }
  pose proof (ser_ic_len ic W) as Ls. change (length (ser_ic ic) = IC_LEN) in Ls.
  assert (length (ic_msg P now x h core ic tx) = 176) as Lm.
  { unfold ic_msg. rewrite commit_msg_len; [reflexivity|exact Ls|]. unfold IC_LEN. lia. }
  apply holds_stored.
  - cbn [erased set_core hs_tx_buf]. rewrite Lb, Lm. lia.
  - unfold ic_msg. pose proof (commit_slice P (rh_peer P now x h core) MInitConf IC_LEN
      (ser_ic ic) tx 0 4 Ls) as E. cbn [plus] in E. rewrite E;
      [|unfold IC_LEN; lia|unfold IC_LEN; lia].
    unfold ser_ic. rewrite slice_take; [exact Es|apply W].
  - right. split; [|split; [exact Lm|reflexivity]]. unfold ic_msg. apply (commit_head P _ MInitConf).
Qed.

Lemma ghost_same p s s1 q y y' f acc : ghost p s acc -> st_rel s s1 q y' f -> pe s q = Some y ->
  p_handshake y' = p_handshake y \/ p_handshake y' = None -> ghost p s1 acc.
Proof.
  intros G R Y Hy x h X H. rewrite (sr_pe _ _ _ _ _ R) in X.
  destruct (Nat.eqb_spec q p) as [->|N]; [|now apply (G x)]. injection X as ->.
  destruct Hy as [Hy|Hy]; [|congruence]. rewrite Hy in H. now apply (G y).
Qed.
Lemma ghost_upd p s s1 q y h y' h' f acc : ghost p s acc -> st_rel s s1 q y' f -> pe s q = Some y ->
  p_handshake y = Some h -> p_handshake y' = Some h' -> (forall m, holds h m -> holds h' m) ->
  ghost p s1 acc.
Proof.
  intros G R Y H H' Hh x h0 X H0. rewrite (sr_pe _ _ _ _ _ R) in X.
  destruct (Nat.eqb_spec q p) as [->|N]; [|now apply (G x)]. injection X as ->.
  rewrite H' in H0. injection H0 as <-. destruct (G y h Y H) as (m & -> & K). eauto.
Qed.
Lemma ghost_new p s s1 q y y' f acc h' m : ghost p s acc -> st_rel s s1 q y' f -> pe s q = Some y ->
  p_handshake y' = Some h' -> holds h' m ->
  ghost p s1 (if Nat.eqb q p then Some m else acc).
Proof.
  intros G R Y H' Hh x h0 X H0. rewrite (sr_pe _ _ _ _ _ R) in X.
  destruct (Nat.eqb_spec q p) as [->|N]; [|now apply (G x)]. injection X as ->.
  rewrite H' in H0. injection H0 as <-. eauto.
Qed.
Lemma ghost_peers p s s1 acc : s_peers s1 = s_peers s -> ghost p s acc -> ghost p s1 acc.
Proof. intros E G x h X. unfold pe in X. rewrite E in X. now apply G. Qed.

Definition next_acc (p : nat) (acc : option bytes) (r0 : res err msg_result) : option bytes :=
  match r0 with
  | Ok m =>
    match mr_exchanged m, mr_resp m with
    | Some q, Some m => if Nat.eqb q p then (match m with x83 :: _ => Some m | _ => acc end) else acc
    | _, _ => acc
    end
  | _ => acc
  end.

Lemma ic_accept_pe s ic a p x bno core : inv P s ->
  ic_accept P s ic a = inl (p, x, bno, core) -> pe s p = Some x.
Proof.
  intros _. unfold ic_accept. destruct (xdec _ _ _ _) as [pt|]; [|discriminate].
  destruct (find_peer _ _) as [q|]; [|discriminate].
  destruct (pe s q) as [y|] eqn:Y; [|discriminate].
  destruct (handle_ic_ck _ _ _); [|discriminate]. destruct (_ <=? _)%N; [discriminate|].
  intros E. injection E as <- <- _ _. exact Y.
Qed.

Lemma ic_failed_ghost p s ic a s' acc : inv P s -> ic_failed P s ic a s' -> ghost p s acc -> ghost p s' acc.
Proof.
  intros I [[-> _]|(q & y & bno & core & q' & HA & _ & _ & R)] G; auto.
  eapply ghost_same; [exact G|exact R| |]; [eapply ic_accept_pe; eauto|]. now left.
Qed.

Lemma ghost_msg now c rx tx p s s1 r acc : inv P s -> 1100 <= length tx ->
  msgstep P now c rx tx s s1 r -> ghost p s acc -> ghost p s1 (next_acc p acc r).
Proof.
  intros I T M G.
  destruct M as [e|q y ck a e FT L Tr|q y ck FT L Tr CS
    |q y h ic core s1 FT L Hi Hp Hh Hs Hn Hc CS R
    |q y h ic core s1 FT L Hi Hp Hh Hs Hn Hc CS R
    |q y k' FT L EK Hp Hk Hm CS
    |e s1 s2 FT L EK F1 F2 K1 K2
    |s0 a q y bno core s1 e FT L EK HA K0 K1 HI SF R
    |s0 q y bno core s1 s2 FT L EK HA K0 K1 HI SF R CS R2
    |q y h u FT L Hi Hp Hh Hs Hn Hu CS Ht D
    |q y h u s1 pt FT L Hi Hp Hh Hs Hn Hu CS Ht D R
    |q y h mac v FT L Hi Hp Hd Hh Hm D
    |q y h mac v FT L Hi Hp Hd Hh Hm D]; cbn [next_acc handled mr_exchanged mr_resp]; auto.
  - eapply ghost_peers; [|exact G]. apply after_biscuit_frame.
  - eapply ghost_peers; [|exact G]. apply after_biscuit_frame.
  - eapply ghost_upd; [exact G|exact R|exact Hp|exact Hh|reflexivity|]. intros m. apply holds_erased.
  - destruct (wp_hs _ (i_wf P s I q y Hp) h Hh) as (W1 & _).
    pose proof (ic_msg_holds now c y h ic core s rx tx W1 L T Hs Hc) as K.
    pose proof (ghost_new p s s1 q y _ _ acc _ _ G R Hp eq_refl K) as G1.
    assert (is_type x83 (ic_msg P now y h core ic tx)) as Ty by apply (commit_head P _ MInitConf).
    destruct (ic_msg P now y h core ic tx) as [|b l]; [discriminate|].
    unfold is_type in Ty. cbn in Ty. injection Ty as ->. exact G1.
  - eapply ic_failed_ghost; [|exact F2|]; [apply K1|]. eapply ic_failed_ghost; eauto.
  - assert (ghost p s0 acc) as G0.
    { destruct HA as [[_ ->]|[_ F]]; auto. eapply ic_failed_ghost; eauto. }
    eapply ghost_same; [exact G0|exact R| |now right]. eapply ic_accept_pe; [|exact HI]. apply K0.
  - assert (ghost p s0 acc) as G0.
    { destruct HA as [[_ ->]|[_ F]]; auto. eapply ic_failed_ghost; eauto. }
    assert (ghost p s1 acc) as G1.
    { eapply ghost_same; [exact G0|exact R| |now right]. eapply ic_accept_pe; [|exact HI]. apply K0. }
    assert (ghost p s2 acc) as G2.
    { eapply ghost_same; [exact G1|exact R2|eapply st_rel_self; exact R|now right]. }
    set (m := commit_msg P _ _ _ _ _).
    assert (is_type x84 m) as Ty by apply (commit_head P _ MEmptyData).
    destruct m as [|b l]; [discriminate|]. unfold is_type in Ty. cbn in Ty. injection Ty as ->.
    destruct (Nat.eqb q p); exact G2.
  - eapply ghost_same; [exact G|eapply with_peer_rel; exact Hp|exact Hp|now left].
  - eapply ghost_same; [exact G|exact R|exact Hp|now right].
  - eapply ghost_upd; [exact G|eapply with_peer_rel; exact Hp|exact Hp|exact Hh|reflexivity|].
    intros m. apply holds_cookie.
  - eapply ghost_upd; [exact G|eapply with_peer_rel; exact Hp|exact Hp|exact Hh|reflexivity|].
    intros m H. now apply holds_retry, holds_cookie.
Qed.

Lemma ghost_step c s s' r p acc : inv P s -> valid c s -> exec P c s = (s', r) ->
  ghost p s acc -> ghost p s' (match sends p c r with Some m => Some m | None => acc end).
Proof.
  intros I V E G. pose proof (exec_step P c s s' r I V E) as S.
  assert (forall r0, match c_op c with OMsg _ _ | OLoad _ _ _ => True | _ => False end ->
    next_acc p acc r0 =
    match sends p c (match r0 with Ok m => Ok (RHandled m) | Err e => Err e | Panic => Panic end) with
    | Some m => Some m | None => acc end) as Nx.
  { intros r0 H. unfold sends, next_acc. destruct (c_op c); try contradiction;
      destruct r0 as [[[q|] [m|]]|e|]; cbn [mr_exchanged mr_resp]; auto; destruct (Nat.eqb q p); auto;
      destruct m as [|[] m]; auto. }
  inversion S as [psk pk a ds Eo|psk pk a ds Eo Ix|q tx q' Eo|q tx y s1 Eo Y Fr R
    |rx' tx s1 r0 Eo M|rx' tx host s1 r0 Eo M|s1 r0 Eo Ps|q tx r0 Eo N|q r0 Eo N]; subst.
  - unfold sends. rewrite Eo. exact G.
  - unfold sends. rewrite Eo. intros x h X H.
    unfold pe in X. cbn [s_peers set_peers set_index] in X.
    destruct (Nat.lt_ge_cases p (length (s_peers s))) as [Lt|Ge].
    + rewrite nth_error_app1 in X by exact Lt. now apply (G x).
    + rewrite nth_error_app2 in X by exact Ge. destruct (p - length (s_peers s)) as [|n].
      * injection X as <-. discriminate.
      * destruct n; discriminate.
  - unfold sends. rewrite Eo. exact G.
  - unfold sends. rewrite Eo. destruct V as [W V]. rewrite Eo in V.
    pose proof (ih_msg_holds (c_now c) (c_coins c) s y tx W (proj2 V)) as K.
    pose proof (ghost_new p s s' q y _ _ acc _ _ G R Y eq_refl K) as G1.
    destruct (Nat.eqb q p); exact G1.
  - rewrite <- Nx by now rewrite Eo. destruct V as [W V]. rewrite Eo in V.
    eapply ghost_msg; eauto.
  - rewrite <- Nx by now rewrite Eo. destruct V as [W V]. rewrite Eo in V.
    destruct (cs_choice_same (c_now c) (c_coins c) s) as (EP & _).
    pose proof (cs_choice_good P (c_now c) (c_coins c) s I) as Gd.
    assert (ghost p (fst (cs_choice (c_now c) (c_coins c) s)) acc) as G1 by now apply (ghost_peers p s).
    destruct M as [e|s1 r FT M|s1 r FT L CV M|e FT|i l FT L EL CV]; auto.
    + eapply ghost_msg; eauto.
    + eapply ghost_msg; [apply (g_inv _ _ _ Gd)|exact V|exact M|exact G1].
  - unfold sends. rewrite Eo.
    destruct (pollstep_pscan P _ _ _ _ _ I Ps) as (s2 & -> & S2).
    apply (ghost_peers p s2); [reflexivity|].
    refine (pscan_ind_inv P _ _ (fun t => ghost p t acc) _ _ _ _ _ _ S2 _).
    + intros t q x t' r It X PP J.
      assert (p_handshake (drop_hs (c_now c) x) = p_handshake x \/ p_handshake (drop_hs (c_now c) x) = None) as Dr
        by (unfold drop_hs; destruct (hs_dead _ _); auto).
      assert (p_handshake (drop_known (c_now c) (drop_hs (c_now c) x)) = p_handshake (drop_hs (c_now c) x)) as Dk
        by (unfold drop_known; destruct (known_dead _ _); auto).
      destruct PP as [t' Ev R1|t' Ev R1|t' Ev R1|t' Ev R1 _].
      * eapply ghost_same; [exact J|exact R1|exact X|exact Dr].
      * eapply ghost_same; [exact J|exact R1|exact X|exact Dr].
      * unfold retried in R1. destruct (p_handshake (drop_hs (c_now c) x)) as [h|] eqn:Hh.
        -- destruct Dr as [Dr|Dr]; [|discriminate].
           eapply ghost_upd; [exact J|exact R1|exact X|symmetry; exact Dr|reflexivity|].
           intros m. apply holds_retry.
        -- eapply ghost_same; [exact J|exact R1|exact X|right; exact Hh].
      * eapply ghost_same; [exact J|exact R1|exact X|]. rewrite Dk. exact Dr.
    + apply (ghost_peers p s); [|exact G]. apply erase_keys_frame.
  - unfold sends. rewrite Eo. exact G.
  - unfold sends. rewrite Eo. exact G.
Qed.

Lemma ghost_run p s h s' : inv P s -> run P s h s' ->
  forall acc, ghost p s acc -> ghost p s' (last_sent_from p acc h).
Proof.
  intros I R. induction R as [s|s c r s1 h s2 V E R IH]; intros acc G; [exact G|].
  cbn [last_sent_from]. apply IH; [eapply exec_inv; eauto|]. eapply ghost_step; eauto.
Qed.

Lemma ghost_reach p s0 h s : initial s0 -> run P s0 h s -> ghost p s (last_sent p h).
Proof.
  intros I R. unfold last_sent. eapply ghost_run; [exact (initial_inv P _ I)|exact R|].
  destruct I as (a & b & c & d & e & f & g & ->). intros x hh X. unfold pe in X.
  destruct p; discriminate.
Qed.

(** A retransmission of a shorter message. *)
Lemma retransmit_conf s p x h m tx :
  length (hs_tx_buf h) = 2500 -> 1100 <= length tx ->
  pe s p = Some x -> p_handshake x = Some h -> hs_tx_len h = 176 ->
  firstn 176 (hs_tx_buf h) = m -> retransmit_handshake P p tx s = (s, Ok m).
Proof.
  intros W T Hp Hh Ln Em.
  enough (wp (retransmit_handshake P p tx) (fun s' r => (s', r) = (s, Ok m)) s) as Wp.
  { unfold wp in Wp. rewrite <- Wp. apply surjective_pairing. }
  unfold retransmit_handshake, apply_retransmission, get_hs.
  assert (length m = 176) as Lm by (rewrite <- Em, firstn_length, W; reflexivity).
  fstep. fstep. fstep. fstep. rewrite Ln, W, Em.
  rewrite (proj2 (Nat.ltb_ge 2500 176)) by lia.
  assert (firstn 176 (cpy_min m tx) = m) as E1.
  { rewrite <- Lm at 1. apply cpy_min_prefix. lia. }
  assert (1060 <= length (cpy_min m tx)) as L1.
  { unfold cpy_min. rewrite app_length, firstn_length, skipn_length. lia. }
  rewrite (proj2 (Nat.ltb_ge _ _)) by exact L1.
  fstep. fstep. fstep. change (env_len IH_LEN) with 1060.
  unfold seal_cookie. rewrite Hh. unfold env_upto_cookie, IH_LEN. cbn [plus].
  f_equal. f_equal. rewrite <- app_assoc, firstn_app, firstn_firstn.
  rewrite (Nat.min_l 176 1044), firstn_firstn, (Nat.min_l 176 1060) by lia.
  rewrite !firstn_length, E1.
  replace (176 - Nat.min 1044 (Nat.min 1060 (length (cpy_min m tx)))) with 0 by lia.
  rewrite firstn_O. apply app_nil_r.
Qed.
End Ghost.

(** * C48 *)

(** [retransmit_handshake] succeeds exactly when the peer has a handshake, and hands out the
    last handshake message sent to the peer: an InitConf as it was, an InitHello except
    for its last 16 bytes, the cookie field. *)
Theorem C48_retransmission_repeats : forall P s0 h s c p tx s' r,
  initial s0 -> run P s0 h s -> valid c s -> c_op c = ORetransmit p tx -> exec P c s = (s', r) ->
  s' = s /\
  ((exists m, last_sent p h = Some m /\
     (is_type x83 m /\ length m = 176 /\ r = Ok (RSent m) \/
      is_type x81 m /\ length m = 1060 /\ exists k, length k = 16 /\ r = Ok (RSent (firstn 1044 m ++ k)))) \/
   exists x, nth_error (s_peers s) p = Some x /\ p_handshake x = None /\ exists e, r = Err e).
Proof.
  intros P s0 h s c p tx s' r I0 R V Eo E.
  pose proof (run_inv P _ _ _ (initial_inv P _ I0) R) as I.
  pose proof (ghost_reach P p s0 h s I0 R) as G.
  destruct V as [_ V]. rewrite Eo in V. destruct V as [Lt T].
  unfold exec in E. rewrite Eo in E. apply map_ok_run in E. destruct E as (r0 & E & ->).
  destruct (pe_some s p Lt) as [x X].
  destruct (p_handshake x) as [hh|] eqn:H.
  - destruct (G x hh X H) as (m & Em & A & B & _ & K).
    destruct (wp_hs _ (i_wf P s I p x X) hh H) as (W1 & _).
    destruct K as [[Ty L]|(Ty & L & _)]; rewrite L in *.
    + rewrite (retransmit_hello P s p x hh m tx W1 T X H A B) in E. injection E as <- <-.
      split; auto. left. exists m. split; auto. right. split; auto. split; auto.
      eexists. split; [|reflexivity]. apply cookie_of_len.
    + rewrite (retransmit_conf P s p x hh m tx W1 T X H A B) in E. injection E as <- <-.
      split; auto. left. exists m. split; auto.
  - unfold retransmit_handshake, apply_retransmission, get_hs, bind, get_peer in E.
    unfold pe in X. rewrite X, H in E. injection E as <- <-. split; auto. right. exists x. eauto.
Qed.
Print Assumptions C48_retransmission_repeats.

(** Both kinds of message occur. *)
Example C48_nonvacuous :
  (exists h s, run Demo.P Demo.A0 h s /\ last_sent 0 h = Some Demo.m1 /\
     exists m, snd (exec Demo.P (Demo.mk (secs 2) x11 (ORetransmit 0 Demo.tx)) s) = Ok (RSent m)) /\
  (exists h s, run Demo.P Demo.A0 h s /\ last_sent 0 h = Some Demo.m3 /\
     snd (exec Demo.P (Demo.mk (secs 4) x11 (ORetransmit 0 Demo.tx)) s) = Ok (RSent Demo.m3)).
Proof.
  split.
  - exists [(Demo.cA1, snd Demo.rA1); (Demo.cA2, snd Demo.rA2)], Demo.A2. split.
    + apply Demo.step; [split; [apply Demo.wf_coin|exact Logic.I]|vm_compute; reflexivity|].
      change (fst Demo.rA1) with Demo.A1. apply Demo.step; [Demo.okv|vm_compute; reflexivity|]. constructor.
    + split; [reflexivity|]. eexists. vm_compute. reflexivity.
  - exists [(Demo.cA1, snd Demo.rA1); (Demo.cA2, snd Demo.rA2); (Demo.cA3, snd Demo.rA3)], Demo.A3. split.
    + apply Demo.step; [split; [apply Demo.wf_coin|exact Logic.I]|vm_compute; reflexivity|].
      change (fst Demo.rA1) with Demo.A1. apply Demo.step; [Demo.okv|vm_compute; reflexivity|].
      change (fst Demo.rA2) with Demo.A2. apply Demo.step; [Demo.okv|vm_compute; reflexivity|]. constructor.
    + split; [reflexivity|]. vm_compute. reflexivity.
Qed.
