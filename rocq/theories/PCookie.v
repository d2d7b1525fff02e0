(** C20, C21, C22, C46: service under load, cookies, and forged acknowledgements. *)
From Verif Require Import Base ConstTime PConstTime Prims HashDomains Wire Server Protocol Wp Inv Rules Calls PollRules System Trans Spec Transcript Forward Demo PSafety PReplay PPoll PNotice PRetransmit.
From Coq Require Strings.String.
Import (notations) Coq.Strings.String.

(** * Vocabulary *)

(** A cookie secret is live for 240 s after it was made (2.5 ms grace). *)
Definition live (now : time) (st : cookie_store) : Prop :=
  (0 <= cs_created st /\ now + 2500 <= cs_created st + secs 240)%Z.

(** The cookie a server with [secret] hands to the sender address [host], and the cookie
    field it expects in a message: bytes 1044 to 1059 of an InitHello, computed over all
    bytes before them. *)
Definition cookie_for (P : prims) (secret host : bytes) : bytes :=
  firstn 16 (hashed P Shake (domain P Shake ["cookie-value"%string]) [secret; host]).
Definition has_cookie (P : prims) (secret host rx : bytes) : Prop :=
  slice 1044 16 rx =
  firstn 16 (hashed P Shake (domain P Shake ["cookie"%string]) [cookie_for P secret host; firstn 1044 rx]).

(** A secret the server accepts cookies for: a live one, or the one it draws in this call
    because none is live. *)
Definition usable_secret (c : call) (s : srv) (secret : bytes) : Prop :=
  (exists i, live (c_now c) (get_cs i s) /\ secret = cs_value (get_cs i s)) \/
  ((forall i, ~ live (c_now c) (get_cs i s)) /\ secret = c_secret (c_coins c)).

Lemma live_secret_spec now st : live_secret now st = true <-> live now st.
Proof.
  unfold live_secret, sec_lifecycle, lifecycle_of, sec_die_at, sec_retire_at, store_created_at, live.
  destruct (Z.ltb_spec (cs_created st) 0) as [H|H]; cbn [option_map].
  - split; [discriminate|lia].
  - unfold has_happened. change EVENT_GRACE with 2500%Z. change COOKIE_SECRET_EPOCH with 120000000%Z.
    change (secs 240) with 240000000%Z.
    match goal with |- context [(?a <? ?b)%Z] => destruct (Z.ltb_spec a b) end.
    + split; [discriminate|lia].
    + match goal with |- context [(?a <? ?b)%Z] => destruct (Z.ltb_spec a b) end; split; auto; lia.
Qed.

(** The secrets used by a call under load. *)
Lemma cs_choice_spec now c s :
  let s1 := fst (cs_choice now c s) in
  (s1 = s /\ (exists i, live now (get_cs i s)) /\
   (forall i, In i (snd (cs_choice now c s)) <-> live now (get_cs i s))) \/
  ((forall i, ~ live now (get_cs i s)) /\ exists i,
   s1 = set_cs i {| cs_created := now; cs_value := c_secret c |} s /\
   snd (cs_choice now c s) = [i] /\ (cs_created (get_cs i s) <= cs_created (get_cs (negb i) s))%Z).
Proof.
  cbn zeta. unfold cs_choice.
  set (y := if (cs_created (s_cs0 s) >=? cs_created (s_cs1 s))%Z then false else true).
  assert (cs_created (get_cs (negb y) s) <= cs_created (get_cs y s))%Z as Hy.
  { subst y. rewrite Z.geb_leb. destruct (Z.leb_spec (cs_created (s_cs1 s)) (cs_created (s_cs0 s)));
      cbn [negb get_cs]; lia. }
  clearbody y.
  assert (forall b, {b = y} + {b = negb y}) as Two by (intros [] ; destruct y; auto).
  destruct (live_secret now (get_cs y s)) eqn:Ly; destruct (live_secret now (get_cs (negb y) s)) eqn:Lo;
    cbn [app fst snd].
  - left. split; auto. apply live_secret_spec in Ly, Lo. split; eauto.
    intros i. destruct (Two i) as [->| ->]; cbn [In]; tauto.
  - left. split; auto. apply live_secret_spec in Ly. split; eauto.
    assert (~ live now (get_cs (negb y) s)) as No by (rewrite <- live_secret_spec; congruence).
    intros i. destruct (Two i) as [->| ->]; cbn [In]; [tauto|].
    split; [|tauto]. intros [H|[]]. destruct y; discriminate.
  - left. split; auto. apply live_secret_spec in Lo. split; eauto.
    assert (~ live now (get_cs y s)) as No by (rewrite <- live_secret_spec; congruence).
    intros i. destruct (Two i) as [->| ->]; cbn [In]; [|tauto].
    split; [|tauto]. intros [H|[]]. destruct y; discriminate.
  - right. split.
    + intros i. rewrite <- live_secret_spec. destruct (Two i) as [->| ->]; congruence.
    + exists (negb y). rewrite Bool.negb_involutive. auto.
Qed.

Lemma cookie_valid_spec P s host rx l : length rx = 1060 ->
  cookie_valid P s host rx l = true <->
  exists i, In i l /\ has_cookie P (cs_value (get_cs i s)) host rx.
Proof.
  intros L. induction l as [|i l IH]; cbn [cookie_valid].
  - split; [discriminate|]. intros (i & [] & _).
  - rewrite Bool.orb_true_iff, IH, memcmp_spec.
    assert (env_cookie IH_LEN rx = cookie_of P (cookie_value_for P (cs_value (get_cs i s)) host)
              (env_upto_cookie IH_LEN rx) <-> has_cookie P (cs_value (get_cs i s)) host rx) as K
      by reflexivity.
    rewrite K. split.
    + intros [H|(j & Hj & H)]; [exists i|exists j]; cbn [In]; auto.
    + intros (j & [<-|Hj] & H); auto. right. eauto.
Qed.

(** * C20 *)

(** Under load, a message that is neither an InitConf nor an InitHello with a valid cookie
    changes at most one cookie secret; it is refused or answered by a CookieReply of the same
    length, and no exchange is reported. *)
Theorem C20_only_cookies_cost : forall P s c rx tx host s' r,
  reachable P s -> valid c s -> c_op c = OLoad rx tx host -> exec P c s = (s', r) ->
  ~ is_type x83 rx ->
  ~ (is_type x81 rx /\ length rx = 1060 /\
     exists secret, usable_secret c s secret /\ has_cookie P secret host rx) ->
  (s' = s \/ exists i st, s' = set_cs i st s) /\
  ((exists e, r = Err e) \/
   exists m, r = Ok (RHandled {| mr_exchanged := None; mr_resp := Some m |}) /\
     is_type x81 rx /\ is_type x86 m /\ length m = length rx).
Proof.
  intros P s c rx tx host s' r (s0 & h & I0 & R) V Eo E N3 N1.
  pose proof (run_inv P _ _ _ (initial_inv P _ I0) R) as I.
  pose proof (exec_step P c s s' r I V E) as S.
  pose proof (cs_choice_spec (c_now c) (c_coins c) s) as CC. cbn zeta in CC.
  assert (fst (cs_choice (c_now c) (c_coins c) s) = s \/
    exists i st, fst (cs_choice (c_now c) (c_coins c) s) = set_cs i st s) as CS.
  { destruct CC as [(A & _)|(_ & i & A & _)]; eauto. }
  inversion S as [psk pk a ds Eo'|psk pk a ds Eo'|q tx' q' Eo'|q tx' y s1 Eo' Y Fr R1
    |rx' tx' s1 r0 Eo' M|rx' tx' host' s1 r0 Eo' M|s1 r0 Eo' Ps|q tx' r0 Eo' N|q r0 Eo' N]; subst;
    try congruence. rewrite Eo in Eo'. injection Eo' as <- <- <-.
  destruct M as [e|s1 r FT M|s1 r FT L CV M|e FT|i l FT L EL CV].
  - split; auto. left. eexists. reflexivity.
  - apply is_type_of in FT. contradiction.
  - exfalso. apply N1. pose proof FT as Ty. apply is_type_of in Ty. split; [exact Ty|]. split; [exact L|].
    apply cookie_valid_spec in CV; [|exact L]. destruct CV as (i & Hi & HC).
    eexists. split; [|exact HC]. unfold usable_secret.
    destruct CC as [(A & _ & B)|(B & j & A & El & _)].
    + left. exists i. rewrite A. split; [now apply B|reflexivity].
    + right. split; [exact B|]. rewrite A. rewrite El in Hi. destruct Hi as [<-|[]].
      destruct j; reflexivity.
  - split; auto. left. eexists. reflexivity.
  - split; auto. right. eexists. split; [reflexivity|]. split; [now apply is_type_of in FT|].
    split; [reflexivity|]. rewrite L. destruct V as [(W1 & W2 & W3 & W4 & W5 & _) V].
    rewrite Eo in V. apply ser_cr_len. unfold wf_cr. cbn [cr_type cr_reserved cr_sid cr_cookie cr_padding].
    split; [reflexivity|]. split; [apply slice_length; lia|].
    split; [apply (wf_rx_ih rx L)|]. split; [|exact W5].
    rewrite xenc_len by exact W4. unfold cookie_value_for. rewrite firstn_length, hmix_len. reflexivity.
Qed.
Print Assumptions C20_only_cookies_cost.

(** A message that is served under load is served exactly as without load, once the cookie
    secrets are in place. *)
Theorem C20_served_as_usual : forall P s c rx tx host,
  is_type x83 rx \/
  (is_type x81 rx /\ length rx = 1060 /\
   exists i, live (c_now c) (get_cs i s) /\ has_cookie P (cs_value (get_cs i s)) host rx) ->
  exec P {| c_now := c_now c; c_coins := c_coins c; c_op := OLoad rx tx host |} s =
  exec P {| c_now := c_now c; c_coins := c_coins c; c_op := OMsg rx tx |} s.
Proof.
  intros P s c rx tx host H. unfold exec, map_ok. cbn [c_op c_now c_coins]. unfold bind.
  enough (handle_msg_under_load P (c_now c) (c_coins c) rx tx host s =
          handle_msg P (c_now c) (c_coins c) rx tx s) as -> by reflexivity.
  destruct H as [Ty|(Ty & L & i & Li & HC)].
  - unfold handle_msg_under_load. destruct rx as [|b l]; [discriminate|].
    unfold is_type in Ty. cbn in Ty. injection Ty as ->. reflexivity.
  - unfold handle_msg_under_load at 1.
    pose proof (first_type_of _ _ Ty) as FT. unfold first_type in FT.
    destruct rx as [|b l] eqn:Erx; [discriminate|]. rewrite FT. cbn [mt_of]. rewrite <- Erx in *.
    unfold bind at 1. rewrite cookie_secrets_eq.
    pose proof (cs_choice_spec (c_now c) (c_coins c) s) as CC. cbn zeta in CC.
    destruct CC as [(A & _ & B)|(B & _)]; [|exfalso; eapply B; eauto].
    rewrite A. unfold bind at 1, get. unfold bind at 1, ensure.
    assert (Nat.eqb (length rx) (env_len IH_LEN) = true) as -> by (rewrite L; reflexivity).
    unfold ret at 1.
    rewrite (proj2 (cookie_valid_spec P s host rx (snd (cs_choice (c_now c) (c_coins c) s)) L)); auto.
    exists i. split; [now apply B|exact HC].
Qed.
Print Assumptions C20_served_as_usual.

(** A live cookie secret is not replaced: of the calls only [poll] and messages under load
    touch the secrets, and only when the secret is not live. *)
Theorem C20_live_secret_kept : forall P s c s' r i,
  reachable P s -> valid c s -> exec P c s = (s', r) -> live (c_now c) (get_cs i s) ->
  get_cs i s' = get_cs i s.
Proof.
  intros P s c s' r i (s0 & h & I0 & R) V E Li.
  pose proof (run_inv P _ _ _ (initial_inv P _ I0) R) as I.
  assert (forall s1 s2, s_cs0 s2 = s_cs0 s1 -> s_cs1 s2 = s_cs1 s1 -> get_cs i s2 = get_cs i s1) as G
    by (intros s1 s2 A B; unfold get_cs; now rewrite A, B).
  assert (forall s1 s2, rest s2 = rest s1 -> get_cs i s2 = get_cs i s1) as GR.
  { intros s1 s2 A. destruct (rest_stores _ _ A) as (_ & _ & B & C). now apply G. }
  assert (forall now cc rx tx s1 s2 r, msgstep P now cc rx tx s1 s2 r -> get_cs i s2 = get_cs i s1) as GM.
  { intros now cc rx tx s1 s2 r0 M.
    destruct M as [e|q x ck a e FT L T|q x ck FT L T CS
    |q x h' ic core s3 FT L Hi Hp Hh Hs Hn Hc CS R'
    |q x h' ic core s3 FT L Hi Hp Hh Hs Hn Hc CS R'
    |q x k' FT L EK Hp Hk Hm CS
    |e s3 s2 FT L EK F1 F2 K1 K2
    |u0 a q x bno core s3 e FT L EK HA K0 K1 HI SF R'
    |u0 q x bno core s3 s2 FT L EK HA K0 K1 HI SF R' CS R2
    |q x h' u FT L Hi Hp Hh Hs Hn Hu CS Ht D
    |q x h' u s3 pt FT L Hi Hp Hh Hs Hn Hu CS Ht D R'
    |q x h' mac v FT L Hi Hp Hd Hh Hm D
    |q x h' mac v FT L Hi Hp Hd Hh Hm D]; try reflexivity;
    try (destruct (after_biscuit_frame now cc s1) as (_&_&_&_&_&_&_&A&B); now apply G);
    try (apply GR; exact (sr_rest _ _ _ _ _ R')).
    - rewrite (GR _ _ (ic_failed_rest P _ _ _ _ F2)). apply GR, (ic_failed_rest P _ _ _ _ F1).
    - rewrite (GR _ _ (sr_rest _ _ _ _ _ R')).
      destruct HA as [[_ ->]|[_ F]]; auto. apply GR, (ic_failed_rest P _ _ _ _ F).
    - rewrite (GR _ _ (sr_rest _ _ _ _ _ R2)), (GR _ _ (sr_rest _ _ _ _ _ R')).
      destruct HA as [[_ ->]|[_ F]]; auto. apply GR, (ic_failed_rest P _ _ _ _ F). }
  assert (get_cs i (fst (cs_choice (c_now c) (c_coins c) s)) = get_cs i s) as GC.
  { pose proof (cs_choice_spec (c_now c) (c_coins c) s) as CC. cbn zeta in CC.
    destruct CC as [(A & _)|(B & _)]; [now rewrite A|exfalso; eapply B; eauto]. }
  pose proof (exec_step P c s s' r I V E) as S.
  inversion S as [psk pk a ds Eo|psk pk a ds Eo|q tx q' Eo|q tx x s1 Eo X Fr R1
    |rx tx s1 r0 Eo M|rx tx host s1 r0 Eo M|s1 r0 Eo Ps|q tx r0 Eo N|q r0 Eo N]; subst; try reflexivity.
  - apply GR. exact (sr_rest _ _ _ _ _ R1).
  - eapply GM; eauto.
  - destruct M as [e|s1 r FT M|s1 r FT L CV M|e FT|j l FT L EL CV]; auto.
    + eapply GM; eauto.
    + rewrite <- GC. eapply GM; eauto.
  - destruct (pollstep_pscan P _ _ _ _ _ I Ps) as (s2 & -> & S2).
    destruct (erase_keys_stores (c_now c) (c_coins c) s) as (_ & _ & E2 & E3).
    assert (get_cs i s2 = get_cs i (erase_keys (c_now c) (c_coins c) s)) as J.
    { eapply (pscan_ind_inv P _ _ (fun t => get_cs i t = get_cs i (erase_keys (c_now c) (c_coins c) s)));
        [|exact S2|reflexivity].
      intros t p x t' r _ X PP J. destruct PP as [t' Ev R1|t' Ev R1|t' Ev R1|t' Ev R1 _];
        rewrite (GR _ _ (sr_rest _ _ _ _ _ R1)); exact J. }
    change (get_cs i (set_poll_off (next_off r0) s2)) with (get_cs i s2). rewrite J.
    assert (forall st, live (c_now c) st -> due_opt (c_now c) (sec_die_at st) = false) as K.
    { intros st Hl. apply live_secret_spec in Hl. unfold live_secret, sec_lifecycle, lifecycle_of in Hl.
      unfold due_opt, sec_die_at in *. destruct (sec_retire_at st) as [t|]; cbn [option_map] in *; auto.
      unfold due. destruct (has_happened (t + COOKIE_SECRET_EPOCH - c_now c) 0); [discriminate|reflexivity]. }
    unfold get_cs in *. destruct i; [rewrite E3|rewrite E2]; now rewrite (K _ Li).
Qed.
Print Assumptions C20_live_secret_kept.

(** Hence over any history, as long as the clock does not pass the end of its life. *)
Lemma live_earlier t1 t2 st : (t1 <= t2)%Z -> live t2 st -> live t1 st.
Proof. unfold live. lia. Qed.

Lemma secret_kept_run : forall P s h s' i t,
  reachable P s -> run P s h s' -> (forall c r, In (c, r) h -> (c_now c <= t)%Z) ->
  live t (get_cs i s) -> get_cs i s' = get_cs i s.
Proof.
  intros P s h s' i t Rs R. revert Rs. induction R as [s|s c r s1 h s2 V E R IH]; intros Rs B L; auto.
  assert (get_cs i s1 = get_cs i s) as K.
  { eapply C20_live_secret_kept; eauto. eapply live_earlier; [|exact L]. eapply B. left. reflexivity. }
  rewrite <- K. apply IH.
  - eapply reachable_run; [exact Rs|]. econstructor; [exact V|exact E|constructor].
  - intros c' r' H. eapply B. right. exact H.
  - now rewrite K.
Qed.

(** * C21 *)

Lemma slice_prefix (o n k : nat) (l : bytes) : o + n <= k -> slice o n l = slice o n (firstn k l).
Proof. intros H. unfold slice. rewrite skipn_firstn_comm, firstn_firstn. now rewrite Nat.min_l by lia. Qed.

Lemma holds_last_mac h m : holds h m -> is_type x81 m -> length m = 1060 ->
  last_mac h = Some (slice 1028 16 m).
Proof.
  intros (_ & B & _ & _) Ty L. rewrite L in B. unfold last_mac.
  assert (firstn 1 (hs_tx_buf h) = firstn 1 m) as F by (rewrite <- B, firstn_firstn; reflexivity).
  unfold is_type in Ty. destruct m as [|b m']; [discriminate|]. cbn in Ty. injection Ty as ->.
  destruct (hs_tx_buf h) as [|b0 l] eqn:Eb; [discriminate|]. cbn [firstn] in F. injection F as ->.
  cbn [mt_of]. f_equal. unfold env_mac, IH_LEN. cbn [plus].
  rewrite (slice_prefix 1028 16 1060) by lia. now rewrite B.
Qed.

Lemma hello_reply_type P now c rx tx s s' m : first_type rx = Some MInitHello ->
  msgstep P now c rx tx s s' (Ok (handled None (Some m))) -> is_type x82 m.
Proof.
  intros F M. inversion M; subst; try congruence.
  unfold rh_msg. apply (commit_head P _ MRespHello).
Qed.
Lemma firstn_1044 (m k : bytes) : length m = 1060 -> firstn 1044 (firstn 1044 m ++ k) = firstn 1044 m.
Proof.
  intros L. rewrite firstn_app, firstn_firstn, Nat.min_id, firstn_length, L.
  replace (1044 - Nat.min 1044 1060) with 0 by lia. rewrite firstn_O. apply app_nil_r.
Qed.

(** [A] has an InitHello [m] to peer [p] outstanding; the peer's key is the key of [B].
    [B], under load, answers [m] by a CookieReply [mc].  Then [A] accepts [mc]; what [A]
    retransmits from then on differs from [m] only in the cookie field; and [B] serves it
    like a server that is not under load, from the same sender address and whatever happened
    meanwhile, while the secret it used is live. *)
Theorem C21_cookie_exchange : forall P a0 hA sA p x m sB cB tx host sB1 mc cA txA,
  correct P ->
  initial a0 -> run_if P fresh_draw a0 hA sA ->
  last_sent p hA = Some m -> is_type x81 m ->
  nth_error (s_peers sA) p = Some x -> p_handshake x <> None ->
  reachable P sB -> p_spkt x = s_spkm sB ->
  valid cB sB -> c_op cB = OLoad m tx host ->
  exec P cB sB = (sB1, Ok (RHandled {| mr_exchanged := None; mr_resp := Some mc |})) ->
  is_type x86 mc ->
  valid cA sA -> c_op cA = OMsg mc txA ->
  exists sA1 i,
    exec P cA sA = (sA1, Ok (RHandled {| mr_exchanged := None; mr_resp := None |})) /\
    ((0 <= c_now cB)%Z -> live (c_now cB) (get_cs i sB1)) /\
    forall cR txR, valid cR sA1 -> c_op cR = ORetransmit p txR ->
    exists m', exec P cR sA1 = (sA1, Ok (RSent m')) /\ firstn 1044 m' = firstn 1044 m /\
    forall hB sB2 t2 coins2 tx2,
      run P sB1 hB sB2 -> (forall c r, In (c, r) hB -> (c_now c <= t2)%Z) ->
      live t2 (get_cs i sB1) ->
      exec P {| c_now := t2; c_coins := coins2; c_op := OLoad m' tx2 host |} sB2 =
      exec P {| c_now := t2; c_coins := coins2; c_op := OMsg m' tx2 |} sB2.
Proof.
  intros P a0 hA sA p x m sB cB tx host sB1 mc cA txA CP Ia Ra Ls Tm X Hn Rb Pk VB EoB EB Tc VA EoA.
  pose proof (run_if_run _ _ _ _ _ Ra) as Ra'.
  pose proof (run_inv P _ _ _ (initial_inv P _ Ia) Ra') as IA.
  pose proof (reachable_inv P _ Rb) as IB.
  destruct (p_handshake x) as [h|] eqn:Hh; [|congruence]. clear Hn.
  destruct (ghost_reach P p a0 hA sA Ia Ra' x h X Hh) as (m0 & Em & Ho).
  rewrite Ls in Em. injection Em as <-.
  assert (length m = 1060) as Lm.
  { destruct Ho as (_ & _ & _ & [[_ L]|[T _]]); [exact L|]. unfold is_type in *. congruence. }
  pose proof (holds_last_mac h m Ho Tm Lm) as Hm.
  assert (hello_sidi m = hs_sid h) as Sid by apply Ho.
  assert (ix sA (KSid (hs_sid h)) = Some p) as Hi.
  { eapply C06_live_id_is_found; eauto. right. exists h. auto. }
  (* what B answered *)
  pose proof (exec_load_ok P cB m tx host sB sB1 _ IB VB EoB EB) as M.
  pose proof (first_type_of _ _ Tm) as FTm. cbn [mt_of] in FTm.
  remember {| mr_exchanged := None; mr_resp := Some mc |} as r1 eqn:Er1.
  remember (Ok r1) as r2 eqn:Er2.
  destruct M as [e|s1 r FT M1|s1 r FT L CV M1|e FT|i l FT L EL CV]; try discriminate.
  { rewrite FTm in FT. discriminate. }
  { exfalso. rewrite Er2, Er1 in M1. pose proof (hello_reply_type P _ _ _ _ _ _ mc FTm M1) as T82.
    unfold is_type in Tc, T82. rewrite Tc in T82. discriminate. }
  injection Er2 as Er2. rewrite <- Er2 in Er1. injection Er1 as Emc. clear Er2.
  set (sB1 := fst (cs_choice (c_now cB) (c_coins cB) sB)) in *.
  set (v := cookie_value_for P (cs_value (get_cs i sB1)) host) in *.
  pose proof VB as VB0. destruct VB as [(W1 & W2 & W3 & W4 & W5 & _) VB]. rewrite EoB in VB.
  assert (length v = 16) as Lv by (unfold v, cookie_value_for; rewrite firstn_length, hmix_len; reflexivity).
  set (ct := xenc P (hmix P Shake (d_cookie_key P Shake) (s_spkm sB)) (c_xnonce (c_coins cB)) (env_mac IH_LEN m) v) in *.
  assert (length ct = 56) as Lct by (unfold ct; rewrite xenc_len by exact W4; now rewrite Lv).
  assert (length (slice 1 3 tx) = 3) as L3 by (apply slice_length; lia).
  assert (length (ih_sidi (parse_ih (env_payload IH_LEN m))) = 4) as L4 by apply (wf_rx_ih m Lm).
  assert (length mc = 1060 /\ creply_sid mc = hello_sidi m /\ creply_cookie mc = ct) as (Lc & Sc & Cc).
  { rewrite <- Emc. assert (hello_sidi m = ih_sidi (parse_ih (env_payload IH_LEN m))) as Eh
      by (destruct (hello_parse m Lm) as (E1 & _); congruence).
    rewrite Eh. clear Eh. change (ih_sidi (parse_ih (env_payload IH_LEN m))) with (slice 0 4 (env_payload IH_LEN m)) in *.
    set (sid := slice 0 4 (env_payload IH_LEN m)) in *. clearbody sid ct.
    unfold ser_cr. cbn [cr_type cr_reserved cr_sid cr_cookie cr_padding].
    split; [|split].
    - rewrite !app_length, L3, L4, Lct, W5. cbn [length]. lia.
    - unfold creply_sid. rewrite slice_skip by (cbn; lia). cbn [length Nat.sub].
      rewrite slice_skip by (rewrite L3; lia). rewrite L3. cbn [Nat.sub].
      now rewrite slice_take by exact L4.
    - unfold creply_cookie. rewrite slice_skip by (cbn; lia). cbn [length Nat.sub].
      rewrite slice_skip by (rewrite L3; lia). rewrite L3. cbn [Nat.sub].
      rewrite slice_skip by (rewrite L4; lia). rewrite L4. cbn [Nat.sub].
      now rewrite slice_take. }
  pose proof (first_type_of _ _ Tc) as FTc. cbn [mt_of] in FTc.
  destruct VA as [_ VA]. rewrite EoA in VA.
  assert (xdec P (hmix P Shake (d_cookie_key P Shake) (p_spkt x)) (slice 1028 16 m) (creply_cookie mc) = Some v) as D.
  { rewrite Cc, Pk. unfold ct. now apply xdec_xenc. }
  set (h1 := set_retry (c_now cA) (hs_tx_count h + 1)
     (set_hs_cookie {| cs_created := c_now cA; cs_value := v |} h)).
  set (sA1 := with_peer p (set_handshake (Some h1) x) sA).
  exists sA1, i. split; [|split].
  - unfold exec. rewrite EoA. unfold map_ok, bind.
    rewrite (cookie_reply_accepted P (c_now cA) (c_coins cA) mc txA sA p x h (slice 1028 16 m) v); auto.
    + now rewrite Sc, Sid.
    + now rewrite Sc, Sid.
  - intros T0. pose proof (cs_choice_spec (c_now cB) (c_coins cB) sB) as CC. cbn zeta in CC.
    fold sB1 in CC. destruct CC as [(A & _ & B)|(_ & j & A & El & _)].
    + rewrite A. apply B. rewrite EL. now left.
    + rewrite A. rewrite EL in El. injection El as -> _.
      assert (get_cs j (set_cs j {| cs_created := c_now cB; cs_value := c_secret (c_coins cB) |} sB) =
        {| cs_created := c_now cB; cs_value := c_secret (c_coins cB) |}) as -> by (destruct j; reflexivity).
      unfold live. cbn [cs_created]. change (secs 240) with 240000000%Z. lia.
  - intros cR txR [_ VR] EoR. rewrite EoR in VR.
    assert (pe sA1 p = Some (set_handshake (Some h1) x)) as X1 by (eapply pe_with_same; exact X).
    destruct (wp_hs _ (i_wf P sA IA p x X) h Hh) as (Wb & _).
    destruct Ho as (A & B & _ & _). rewrite Lm in A, B.
    pose proof (retransmit_hello P sA1 p _ h1 m txR Wb (proj2 VR) X1 eq_refl A B) as Rt.
    eexists. split; [|split].
    + unfold exec. rewrite EoR. unfold map_ok, bind. rewrite Rt. reflexivity.
    + now apply firstn_1044.
    + intros hB sB2 t2 coins2 tx2 Rb2 Bd Lv2.
      cbn [cs_value h1 set_retry set_hs_cookie hs_cookie].
      set (m' := firstn 1044 m ++ _).
      assert (get_cs i sB2 = get_cs i sB1) as K.
      { eapply secret_kept_run; [|exact Rb2|exact Bd|exact Lv2].
        eapply reachable_run; [exact Rb|]. econstructor; [exact VB0|exact EB|constructor]. }
      assert (firstn 1044 m' = firstn 1044 m) as F.
      { now apply firstn_1044. }
      apply (C20_served_as_usual P sB2 {| c_now := t2; c_coins := coins2; c_op := OMsg m' tx2 |}).
      right. split; [|split].
      * unfold is_type, m' in *. rewrite nth_error_app1 by (rewrite firstn_length; lia).
        destruct m as [|b m0]; [discriminate|]. exact Tm.
      * unfold m'. rewrite app_length, firstn_length, Lm, cookie_of_len. lia.
      * exists i. cbn [c_now]. rewrite K. split; [exact Lv2|].
        unfold has_cookie. rewrite F. unfold m' at 1.
        rewrite slice_skip by (rewrite firstn_length; lia).
        rewrite firstn_length, Lm. replace (1044 - Nat.min 1044 1060) with 0 by lia.
        rewrite slice_all by apply cookie_of_len. reflexivity.
Qed.
Print Assumptions C21_cookie_exchange.

(** The demo servers under load. *)
Definition host : bytes := [x7f; x00; x00; x01; x12; x34].
Definition cL1 := Demo.mk (secs 2) xbb (OLoad Demo.m1 Demo.tx host).
Definition rL1 := Eval vm_compute in exec Demo.P cL1 Demo.B1.
Definition BL1 := Eval vm_compute in fst rL1.
Definition mc1 := Eval vm_compute in Demo.sent (snd rL1).
Definition cL2 := Demo.mk (secs 3) xcc (OMsg mc1 Demo.tx).
Definition rL2 := Eval vm_compute in exec Demo.P cL2 Demo.A2.
Definition AL2 := Eval vm_compute in fst rL2.
Definition cL3 := Demo.mk (secs 3) xcd (ORetransmit 0 Demo.tx).
Definition rL3 := Eval vm_compute in exec Demo.P cL3 AL2.
Definition mR := Eval vm_compute in Demo.sent (snd rL3).
Definition cL4 := Demo.mk (secs 4) xce (OLoad mR Demo.tx host).
Definition rL4 := Eval vm_compute in exec Demo.P cL4 BL1.

(** The exchange on concrete servers: CookieReply, accepted, retransmitted, answered by a
    RespHello (0x82). *)
Example C21_nonvacuous :
  (exists m, snd rL1 = Ok (RHandled {| mr_exchanged := None; mr_resp := Some m |}) /\ is_type x86 m) /\
  snd rL2 = Ok (RHandled {| mr_exchanged := None; mr_resp := None |}) /\
  (exists m, snd rL3 = Ok (RSent m) /\ m <> Demo.m1) /\
  (exists m, snd rL4 = Ok (RHandled {| mr_exchanged := None; mr_resp := Some m |}) /\ is_type x82 m).
Proof.
  split; [|split; [|split]].
  - eexists. split; reflexivity.
  - reflexivity.
  - exists mR. split; [reflexivity|]. intros E. apply (f_equal (skipn 1044)) in E. discriminate E.
  - eexists. split; reflexivity.
Qed.

Lemma reachB1 : reachable Demo.P Demo.B1.
Proof.
  apply (Demo.reach Demo.B0 [(Demo.cB1, snd Demo.rB1)]); [exact Demo.initB|].
  apply Demo.step; [split; [apply Demo.wf_coin|exact Logic.I]|vm_compute; reflexivity|]. constructor.
Qed.
Lemma reachBL1 : reachable Demo.P BL1.
Proof.
  eapply reachable_run with (h := [(cL1, snd rL1)]); [exact reachB1|].
  apply Demo.step; [Demo.okv|vm_compute; reflexivity|]. constructor.
Qed.
Lemma reachAL2 : reachable Demo.P AL2.
Proof.
  eapply reachable_run with (h := [(cL2, snd rL2)]); [exact reachA2|].
  apply Demo.step; [Demo.okv|vm_compute; reflexivity|]. constructor.
Qed.

(** An InitHello without cookie falls under [C20_only_cookies_cost]. *)
Example C20_nonvacuous :
  reachable Demo.P Demo.B1 /\ valid cL1 Demo.B1 /\ ~ is_type x83 Demo.m1 /\
  (forall secret, usable_secret cL1 Demo.B1 secret -> ~ has_cookie Demo.P secret host Demo.m1) /\
  exists i, live (secs 3) (get_cs i BL1).
Proof.
  split; [exact reachB1|]. split; [Demo.okv|]. split; [discriminate|]. split.
  - intros secret U H. assert (secret = repeat xbb 16) as ->.
    { destruct U as [(i & [L _] & _)|[_ ->]]; [|reflexivity]. exfalso.
      destruct i; vm_compute in L; now apply L. }
    vm_compute in H. discriminate H.
  - exists true. vm_compute. split; discriminate.
Qed.

(** * C22 *)

(** A CookieReply is accepted only if it opens under the key derived from the peer's static
    public key, with the mac of the outstanding message as associated data; its content
    then is the cookie of the next retransmission. *)
Theorem C22_accepted_cookie : forall P a0 hA s c rx tx s',
  initial a0 -> run P a0 hA s -> valid c s -> c_op c = OMsg rx tx -> is_type x86 rx ->
  exec P c s = (s', Ok (RHandled {| mr_exchanged := None; mr_resp := None |})) ->
  exists p x m v, nth_error (s_peers s) p = Some x /\ last_sent p hA = Some m /\
    xdec P (khash P Shake (domain P Shake ["cookie-key"%string]) (p_spkt x)) (slice (length m - 32) 16 m)
      (creply_cookie rx) = Some v /\
    (is_type x81 m -> forall cR txR, valid cR s' -> c_op cR = ORetransmit p txR ->
      exec P cR s' = (s', Ok (RSent (firstn 1044 m ++
        firstn 16 (hashed P Shake (domain P Shake ["cookie"%string]) [v; firstn 1044 m]))))).
Proof.
  intros P a0 hA s c rx tx s' Ia R V Eo Ty E.
  pose proof (run_inv P _ _ _ (initial_inv P _ Ia) R) as I.
  pose proof (exec_msg_ok P c rx tx s s' _ I V Eo E) as M.
  pose proof (first_type_of _ _ Ty) as FTm. cbn [mt_of] in FTm.
  remember (Ok {| mr_exchanged := None; mr_resp := None |}) as r1 eqn:Er.
  destruct M as [e|q x ck a e FT L T|q x ck FT L T CS
    |q x h' ic core s3 FT L Hi Hp Hh Hs Hn Hc CS R'
    |q x h' ic core s3 FT L Hi Hp Hh Hs Hn Hc CS R'
    |q x k' FT L EK Hp Hk Hm CS
    |e s3 s2 FT L EK F1 F2 K1 K2
    |u0 a q x bno core s3 e FT L EK HA K0 K1 HI SF R'
    |u0 q x bno core s3 s2 FT L EK HA K0 K1 HI SF R' CS R2
    |q x h' u FT L Hi Hp Hh Hs Hn Hu CS Ht D
    |q x h' u s3 pt FT L Hi Hp Hh Hs Hn Hu CS Ht D R'
    |q x h' mac v FT L Hi Hp Hd Hh Hm D
    |q x h' mac v FT L Hi Hp Hd Hh Hm D]; try congruence.
  destruct (ghost_reach P q a0 hA s Ia R x h' Hp Hh) as (m & Em & Ho).
  exists q, x, m, v. split; [exact Hp|]. split; [exact Em|].
  assert (mac = slice (length m - 32) 16 m) as ->.
  { destruct Ho as (_ & B & _ & K). unfold last_mac in Hm.
    destruct (hs_tx_buf h') as [|b l] eqn:Eb; [discriminate|].
    assert (is_type b m) as Tb.
    { unfold is_type. rewrite <- B. destruct K as [[_ L1]|(_ & L1 & _)]; rewrite L1; reflexivity. }
    destruct K as [[T1 L1]|(T1 & L1 & _)]; rewrite L1 in *; unfold is_type in *;
      rewrite T1 in Tb; injection Tb as <-; cbn [mt_of] in Hm; injection Hm as <-;
      unfold env_mac, IH_LEN, IC_LEN; cbn [plus Nat.sub].
    - rewrite (slice_prefix 1028 16 1060) by lia. now rewrite B.
    - rewrite (slice_prefix 144 16 176) by lia. now rewrite B. }
  split.
  - unfold dec_in_place in D. change (cr_cookie (parse_cr rx)) with (creply_cookie rx) in D.
    change (hmix P Shake (d_cookie_key P Shake) (p_spkt x)) with
      (khash P Shake (d_cookie_key P Shake) (p_spkt x)) in D.
    destruct (xdec _ _ _ _) as [w|]; [|discriminate]. now injection D as ->.
  - intros Th cR txR [_ VR] EoR. rewrite EoR in VR.
    set (h1 := set_retry _ _ _) in *.
    set (s' := with_peer q (set_handshake (Some h1) x) s) in *.
    assert (pe s' q = Some (set_handshake (Some h1) x)) as X1 by (eapply pe_with_same; exact Hp).
    destruct (wp_hs _ (i_wf P s I q x Hp) h' Hh) as (Wb & _).
    destruct Ho as (A & B & _ & K).
    destruct K as [[_ L1]|(K & _)]; [|unfold is_type in *; congruence]. rewrite L1 in A, B.
    pose proof (retransmit_hello P s' q _ h1 m txR Wb (proj2 VR) X1 eq_refl A B) as Rt.
    unfold exec. rewrite EoR. unfold map_ok, bind. rewrite Rt. reflexivity.
Qed.
Print Assumptions C22_accepted_cookie.

Example C22_nonvacuous :
  valid cL2 Demo.A2 /\ is_type x86 mc1 /\
  exec Demo.P cL2 Demo.A2 = (AL2, Ok (RHandled {| mr_exchanged := None; mr_resp := None |})) /\
  run Demo.P Demo.A0 [(Demo.cA1, snd Demo.rA1); (Demo.cA2, snd Demo.rA2)] Demo.A2.
Proof.
  split; [Demo.okv|]. split; [reflexivity|]. split; [vm_compute; reflexivity|].
  apply Demo.step; [split; [apply Demo.wf_coin|exact Logic.I]|vm_compute; reflexivity|].
  change (fst Demo.rA1) with Demo.A1. apply Demo.step; [Demo.okv|vm_compute; reflexivity|]. constructor.
Qed.

(** The full property is false: a CookieReply that is refused overwrites the cookie.  Here
    the next retransmission of the initiator would have been served by the responder, and after
    a forged CookieReply it is not (it is answered by another CookieReply). *)
Definition forged_reply : bytes := [x86; x00; x00; x00] ++ slice 4 4 Demo.m1 ++ repeat x99 1052.
Definition cForge := Demo.mk (secs 3) xcd (OMsg forged_reply Demo.tx).
Definition rForge := Eval vm_compute in exec Demo.P cForge AL2.
Definition mF := Eval vm_compute in Demo.sent (snd (exec Demo.P cL3 (fst rForge))).
Theorem C22_failed_reply_refuted : exists sA c s' e sB before after,
  reachable Demo.P sA /\ valid c sA /\ c_op c = OMsg forged_reply Demo.tx /\
  exec Demo.P c sA = (s', Err e) /\
  reachable Demo.P sB /\
  exec Demo.P cL3 sA = (sA, Ok (RSent before)) /\
  exec Demo.P cL3 s' = (s', Ok (RSent after)) /\
  (exists s m, exec Demo.P (Demo.mk (secs 4) xce (OLoad before Demo.tx host)) sB =
     (s, Ok (RHandled {| mr_exchanged := None; mr_resp := Some m |})) /\ is_type x82 m) /\
  (exists s m, exec Demo.P (Demo.mk (secs 4) xce (OLoad after Demo.tx host)) sB =
     (s, Ok (RHandled {| mr_exchanged := None; mr_resp := Some m |})) /\ is_type x86 m).
Proof.
  exists AL2, cForge, (fst rForge), EDecrypt, BL1, mR, mF.
  split; [exact reachAL2|]. split; [Demo.okv|]. split; [reflexivity|].
  split; [vm_compute; reflexivity|]. split; [exact reachBL1|].
  split; [vm_compute; reflexivity|]. split; [vm_compute; reflexivity|]. split.
  - eexists _, _. split; [vm_compute; reflexivity|reflexivity].
  - eexists _, _. split; [vm_compute; reflexivity|reflexivity].
Qed.
Print Assumptions C22_failed_reply_refuted.

(** What remains true: a refused CookieReply changes at most the cookie of the handshake it
    names; no other peer, and nothing else.  Missing for the full property: the cookie. *)
Theorem C22_failed_reply_partial : forall P s c rx tx s' e p x,
  reachable P s -> valid c s -> c_op c = OMsg rx tx -> is_type x86 rx ->
  exec P c s = (s', Err e) -> nth_error (s_peers s) p = Some x ->
  nth_error (s_peers s') p = Some x \/
  exists h st, p_handshake x = Some h /\
    nth_error (s_peers s') p = Some (set_handshake (Some (set_hs_cookie st h)) x).
Proof.
  intros P s c rx tx s' e p x Rs V Eo Ty E X.
  assert (received c = Some rx) as Rc by (unfold received; now rewrite Eo).
  destruct (C08_rejected_partial P s c rx s' e p x Rs V Rc E X) as (x' & X' & C).
  unfold is_type in *. destruct C; try congruence; [left; exact X'|right]. eauto.
Qed.
Print Assumptions C22_failed_reply_partial.

(** * C46 *)

(** An acknowledgement that [s] accepts is still accepted after a refused one whose counter
    is not larger.  Missing for the full property: forged acknowledgements with a larger
    counter, refuted below. *)
Theorem C46_forged_ack_partial : forall P s cf forged txf s1 e cg g txg s2,
  reachable P s ->
  valid cf s -> c_op cf = OMsg forged txf -> is_type x84 forged -> exec P cf s = (s1, Err e) ->
  valid cg s -> c_op cg = OMsg g txg -> is_type x84 g ->
  exec P cg s = (s2, Ok (RHandled {| mr_exchanged := None; mr_resp := None |})) ->
  (le_dec (data_ctr forged) <= le_dec (data_ctr g))%N ->
  exists s3, exec P cg s1 = (s3, Ok (RHandled {| mr_exchanged := None; mr_resp := None |})).
Proof.
  intros P s cf forged txf s1 e cg g txg s2 Rs Vf Ef Tf Xf Vg Eg Tg Xg Le.
  pose proof (reachable_inv P _ Rs) as I.
  pose proof (exec_inv P _ _ _ _ I Vf Xf) as I1.
  pose proof (exec_msg_err P cf forged txf s s1 e I Vf Ef Xf) as Mf.
  pose proof (exec_msg_ok P cg g txg s s2 _ I Vg Eg Xg) as Mg.
  pose proof (first_type_of _ _ Tf) as FTf. pose proof (first_type_of _ _ Tg) as FTg. cbn [mt_of] in FTf, FTg.
  remember (Ok {| mr_exchanged := None; mr_resp := None |}) as rg eqn:Erg.
  destruct Mg as [e0|q x ck a e0 FT L T|q x ck FT L T CS
    |q x h' ic core s3 FT L Hi Hp Hh Hs Hn Hc CS R'
    |q x h' ic core s3 FT L Hi Hp Hh Hs Hn Hc CS R'
    |q x k' FT L EK Hp Hk Hm CS
    |e0 s3 s2 FT L EK F1 F2 K1 K2
    |u0 a q x bno core s3 e0 FT L EK HA K0 K1 HI SF R'
    |u0 q x bno core s3 s2 FT L EK HA K0 K1 HI SF R' CS R2
    |q x h' u FT L Hi Hp Hh Hs Hn Hu CS Ht D
    |q x h' u s3 pt FT L Hi Hp Hh Hs Hn Hu CS Ht D R'
    |q x h' mac v FT L Hi Hp Hd Hh Hm D
    |q x h' mac v FT L Hi Hp Hd Hh Hm D]; try congruence.
  destruct (data_parse g) as (E1 & E2 & E3). rewrite E1 in Hi, Hs. rewrite E2 in Ht, D. rewrite E3 in D.
  assert (forall x1 u1, pe s1 q = Some x1 -> p_handshake x1 = Some h' -> p_session x1 = Some u1 ->
     p_alg x1 = p_alg x -> se_txkt u1 = se_txkt u -> (se_txnt u1 <= le_dec (data_ctr g))%N ->
     s_spkm s1 = s_spkm s -> ix s1 (KSid (data_sid g)) = Some q ->
     exists s3, exec P cg s1 = (s3, Ok (RHandled {| mr_exchanged := None; mr_resp := None |}))) as K.
  { intros x1 u1 Hp1 Hh1 Hu1 Ha1 Hk1 Ht1 Pk1 Hi1. destruct Vg as [_ Vg]. rewrite Eg in Vg.
    destruct (empty_data_accepted P (c_now cg) (c_coins cg) g txg s1 q x1 h' u1 pt) as (s4 & E4 & _); auto.
    - rewrite Ha1. unfold check_seal in *. now rewrite Pk1.
    - now rewrite Hk1.
    - exists s4. unfold exec. rewrite Eg. unfold map_ok, bind. rewrite E4. reflexivity. }
  assert (exists rf, rf = Err e /\ msgstep P (c_now cf) (c_coins cf) forged txf s s1 rf) as (rf & Erf & Mf') by eauto.
  clear Mf. destruct Mf' as [e0|q1 x1 ck a e0 FT1 L1 T|q1 x1 ck FT1 L1 T CS1
    |q1 x1 h1 ic core s5 FT1 L1 Hi1 Hp1 Hh1 Hs1 Hn1 Hc1 CS1 R1
    |q1 x1 h1 ic core s5 FT1 L1 Hi1 Hp1 Hh1 Hs1 Hn1 Hc1 CS1 R1
    |q1 x1 k' FT1 L1 EK Hp1 Hk Hm CS1
    |e0 s5 s6 FT1 L1 EK F1 F2 K1 K2
    |u9 a q1 x1 bno core s5 e0 FT1 L1 EK HA K0 K1 HI SF R1
    |u9 q1 x1 bno core s5 s6 FT1 L1 EK HA K0 K1 HI SF R1 CS1 R2
    |q1 x1 h1 u1 FT1 L1 Hi1 Hp1 Hh1 Hs1 Hn1 Hu1 CS1 Ht1 D1
    |q1 x1 h1 u1 s5 pt1 FT1 L1 Hi1 Hp1 Hh1 Hs1 Hn1 Hu1 CS1 Ht1 D1 R1
    |q1 x1 h1 mac v FT1 L1 Hi1 Hp1 Hd1 Hh1 Hm1 D1
    |q1 x1 h1 mac v FT1 L1 Hi1 Hp1 Hd1 Hh1 Hm1 D1]; try discriminate; try (rewrite FTf in FT1; discriminate).
  - eapply K; eauto.
  - destruct (data_parse forged) as (_ & E2f & _). rewrite E2f in *.
    destruct (Nat.eq_dec q1 q) as [->|N].
    + rewrite Hp in Hp1. injection Hp1 as <-. rewrite Hu in Hu1. injection Hu1 as <-.
      eapply (K _ (set_txnt (le_dec (data_ctr forged)) u)); [eapply pe_with_same; exact Hp| | | | | | |];
        try reflexivity; auto.
    + eapply (K x u); auto; try reflexivity.
      rewrite (pe_with_peer _ _ _ _ _ Hp1). destruct (Nat.eqb_spec q1 q); [contradiction|exact Hp].
Qed.
Print Assumptions C46_forged_ack_partial.

(** Refuted in general: anyone who knows the public key of the initiator can make an
    EmptyData message that is refused and after which the genuine one is refused, too. *)
Definition forged_ack : bytes := Eval vm_compute in
  let b := firstn 8 Demo.m4 ++ repeat xff 8 ++ zeros 16 in
  b ++ mac_of Demo.P Shake Demo.pkA b ++ zeros 16.
Definition cAck := Demo.mk (secs 4) xcd (OMsg forged_ack Demo.tx).
Definition rAck := Eval vm_compute in exec Demo.P cAck Demo.A3.
Theorem C46_forged_ack_refuted : exists s cf s1 e cg,
  reachable Demo.P s /\ valid cf s /\ c_op cf = OMsg forged_ack Demo.tx /\
  exec Demo.P cf s = (s1, Err e) /\
  valid cg s /\ c_op cg = OMsg Demo.m4 Demo.tx /\
  (exists s2, exec Demo.P cg s = (s2, Ok (RHandled {| mr_exchanged := None; mr_resp := None |}))) /\
  (exists s3 e', exec Demo.P cg s1 = (s3, Err e')).
Proof.
  exists Demo.A3, cAck, (fst rAck), EDecrypt, Demo.cA4.
  split; [exact reachA3|]. split; [Demo.okv|]. split; [reflexivity|]. split; [vm_compute; reflexivity|].
  split; [Demo.okv|]. split; [reflexivity|]. split.
  - exists Demo.A4. vm_compute. reflexivity.
  - eexists _, _. vm_compute. reflexivity.
Qed.
Print Assumptions C46_forged_ack_refuted.

(** The partial theorem applies to a forged acknowledgement with the genuine counter. *)
Definition forged_ack0 : bytes := Eval vm_compute in
  let b := firstn 16 Demo.m4 ++ zeros 16 in b ++ mac_of Demo.P Shake Demo.pkA b ++ zeros 16.
Example C46_nonvacuous :
  is_type x84 forged_ack0 /\
  (exists s1, exec Demo.P (Demo.mk (secs 4) xcd (OMsg forged_ack0 Demo.tx)) Demo.A3 = (s1, Err EDecrypt) /\ s1 <> Demo.A4) /\
  (le_dec (data_ctr forged_ack0) <= le_dec (data_ctr Demo.m4))%N.
Proof.
  split; [reflexivity|]. split.
  - eexists. split; [vm_compute; reflexivity|]. intros E. apply (f_equal s_peers) in E. vm_compute in E. discriminate E.
  - vm_compute. discriminate.
Qed.
