(** Rules for the message handlers and for polling; every call keeps the invariant. *)
From Verif Require Import Base ConstTime Prims HashDomains Wire Server Protocol Wp Inv Rules.
Local Open Scope m_scope.

Lemma wp_or_else {A} (m h : M A) (Q : srv -> res err A -> Prop) s :
  wp m (fun s' r => match r with
                    | Ok a => Q s' (Ok a)
                    | Err _ => wp h Q s'
                    | Panic => Q s' Panic
                    end) s ->
  wp (or_else m h) Q s.
Proof. unfold wp, or_else. destruct (m s) as [s' [a|e|]]; simpl; auto. Qed.

Lemma wp_try_hashes {A} (f : halg -> M A) (Q : srv -> res err (A * halg) -> Prop) s :
  wp (f Shake) (fun s1 r =>
    match r with
    | Ok a => Q s1 (Ok (a, Shake))
    | Panic => Q s1 Panic
    | Err _ =>
        wp (f Blake) (fun s2 r =>
          match r with
          | Ok a => Q s2 (Ok (a, Blake))
          | Panic => Q s2 Panic
          | Err _ => Q s2 (Err ENoValidHash)
          end) s1
    end) s ->
  wp (try_hashes f) Q s.
Proof.
  intros H. unfold try_hashes. apply wp_or_else, wp_bind.
  eapply wp_mono; [exact H|]. intros s1 [a|e|] K; cbv beta iota.
  - apply wp_ret. exact K.
  - apply wp_or_else, wp_bind. eapply wp_mono; [exact K|].
    intros s2 [a|e2|] K2; cbv beta iota.
    + apply wp_ret. exact K2.
    + apply wp_fail. exact K2.
    + exact K2.
  - exact K.
Qed.

Lemma env_payload_len n m : length m = env_len n -> length (env_payload n m) = n.
Proof. unfold env_len, env_payload. intros H. apply slice_length. lia. Qed.

Lemma leb_ltb_false a b : b <= a -> Nat.ltb a b = false.
Proof. apply Nat.ltb_ge. Qed.

Section WithPrims.
Context (P : prims).

(** * InitHello *)

(** The first hash function under which the message is accepted. *)
Definition ih_try (s : srv) (ih : init_hello) : option (nat * peer * bytes * halg) :=
  match ih_accept P s ih Shake with
  | inl (p, x, ck) => Some (p, x, ck, Shake)
  | inr _ =>
      match ih_accept P s ih Blake with
      | inl (p, x, ck) => Some (p, x, ck, Blake)
      | inr _ => None
      end
  end.

Lemma ih_try_pe s ih p x ck a : ih_try s ih = Some (p, x, ck, a) ->
  pe s p = Some x /\ ih_accept P s ih a = inl (p, x, ck).
Proof.
  unfold ih_try. destruct (ih_accept P s ih Shake) as [[[q y] k]|e] eqn:E.
  - intros [= <- <- <- <-]. split; [eapply ih_accept_pe|]; eauto.
  - destruct (ih_accept P s ih Blake) as [[[q y] k]|e'] eqn:F; [|discriminate].
    intros [= <- <- <- <-]. split; [eapply ih_accept_pe|]; eauto.
Qed.

Definition rh_msg (now : time) (c : coins) (s : srv) (x : peer) (ih : init_hello) (a : halg)
  (ck tx : bytes) : bytes :=
  commit_msg P x MRespHello RH_LEN (ser_rh (rh_of P now c s x ih a ck)) tx.

Lemma msg_init_hello_eq now c rx tx s :
  inv P s ->
  msg_init_hello P now c rx tx s =
  let ih := parse_ih (env_payload IH_LEN rx) in
  if Nat.eqb (length rx) (env_len IH_LEN) then
    match ih_try s ih with
    | None => (s, Err ENoValidHash)
    | Some (p, x, ck, a) =>
        (after_biscuit now c s,
         if negb (halg_eqb (p_alg x) a) then Err EHashMismatch
         else if negb (check_seal P s a IH_LEN rx) then Err ESeal
         else Ok {| mr_exchanged := None;
                    mr_resp := Some (rh_msg now c s x ih a ck tx) |})
    end
  else (s, Err EBufferSize).
Proof.
  intros I. unfold msg_init_hello. cbn zeta. unfold bind at 1, ensure at 1.
  destruct (Nat.eqb (length rx) (env_len IH_LEN)); [|reflexivity].
  unfold ret at 1. unfold bind at 1, try_hashes, or_else, bind at 1.
  rewrite handle_init_hello_eq by exact I.
  unfold ih_try.
  assert (forall p x ck a, pe s p = Some x ->
    (verify_hash_choice p a;;;
     s0 <- get;;
     ensure (check_seal P s0 a IH_LEN rx) ESeal;;;
     x0 <- get_peer p;;
     ret {| mr_exchanged := None;
            mr_resp := Some (commit_msg P x0 MRespHello RH_LEN
              (ser_rh (rh_of P now c s x (parse_ih (env_payload IH_LEN rx)) a ck)) tx) |})
      (after_biscuit now c s) =
    (after_biscuit now c s,
     if negb (halg_eqb (p_alg x) a) then Err EHashMismatch
     else if negb (check_seal P s a IH_LEN rx) then Err ESeal
     else Ok {| mr_exchanged := None;
                mr_resp := Some (rh_msg now c s x (parse_ih (env_payload IH_LEN rx)) a ck tx) |}))
    as K.
  { intros p x ck a X.
    destruct (after_biscuit_frame now c s) as (_ & F2 & _ & F4 & _).
    unfold pe in X. rewrite <- F4 in X.
    unfold verify_hash_choice, bind, get_peer. rewrite X.
    destruct (halg_eqb (p_alg x) a); cbn [ensure negb]; [|reflexivity].
    unfold ret at 1. unfold get. unfold check_seal. rewrite F2.
    destruct (memcmp _ _); cbn [ensure negb]; [|reflexivity].
    unfold ret at 1. rewrite X. reflexivity. }
  destruct (ih_accept P s (parse_ih (env_payload IH_LEN rx)) Shake) as [[[p x] ck]|e] eqn:E.
  - unfold ret at 1. apply K. eapply ih_accept_pe; eauto.
  - unfold bind at 1. rewrite handle_init_hello_eq by exact I.
    destruct (ih_accept P s (parse_ih (env_payload IH_LEN rx)) Blake) as [[[p x] ck]|e'] eqn:F.
    + unfold ret at 1. apply K. eapply ih_accept_pe; eauto.
    + reflexivity.
Qed.

Lemma after_biscuit_good now c s : inv P s -> good P s (after_biscuit now c s).
Proof.
  intros I. destruct (after_biscuit_frame now c s) as (A & B & C & D & E & F & _).
  apply good_frame; auto. rewrite C, increment_length. apply (i_bctr P s I).
Qed.

(** * RespHello *)

Definition rh_peer (now : time) (x : peer) (h : ihs) (core : hs_core) : peer :=
  set_handshake (Some (erased h))
    (set_session (Some (enter_live P now core Initiator (p_alg x))) x).
Definition ic_msg (now : time) (x : peer) (h : ihs) (core : hs_core) (ic : init_conf)
  (tx : bytes) : bytes :=
  commit_msg P (rh_peer now x h core) MInitConf IC_LEN (ser_ic ic) tx.

Lemma msg_len_2500 (m : bytes) n : length m = env_len n -> n <= 2464 -> length m <= 2500.
Proof. unfold env_len. lia. Qed.

Lemma small_ic : IC_LEN <= 2464.
Proof. apply Nat.leb_le. reflexivity. Qed.
Lemma small_ih : IH_LEN <= 2464.
Proof. apply Nat.leb_le. reflexivity. Qed.
Lemma ic_fits (tx : bytes) : env_len RH_LEN <= length tx -> IC_LEN + 36 <= length tx.
Proof. unfold env_len, RH_LEN, IC_LEN. lia. Qed.
Lemma ed_fits (tx : bytes) : env_len RH_LEN <= length tx -> ED_LEN + 36 <= length tx.
Proof. unfold env_len, RH_LEN, ED_LEN. lia. Qed.

Lemma wf_ic_of rh h s ic core :
  wf_rh rh -> handle_rh_compute P s h rh = Some (ic, core) -> wf_ic ic.
Proof.
  intros (A & B & _ & _ & _ & C) E.
  destruct (handle_rh_compute_sidi P _ _ _ _ _ E) as (_ & _ & _ & E1 & E2 & E3 & E4).
  repeat split; congruence.
Qed.

Lemma wf_rx_ih rx : length rx = env_len IH_LEN -> wf_ih (parse_ih (env_payload IH_LEN rx)).
Proof. intros L. apply wf_parse_ih. now apply env_payload_len. Qed.
Lemma wf_rx_rh rx : length rx = env_len RH_LEN -> wf_rh (parse_rh (env_payload RH_LEN rx)).
Proof. intros L. apply wf_parse_rh. now apply env_payload_len. Qed.
Lemma wf_rx_ic rx : length rx = env_len IC_LEN -> wf_ic (parse_ic (env_payload IC_LEN rx)).
Proof. intros L. apply wf_parse_ic. now apply env_payload_len. Qed.

Lemma wp_msg_resp_hello now c rx tx (Q : srv -> res err msg_result -> Prop) s :
  inv P s -> env_len RH_LEN <= length tx ->
  (forall e, Q s (Err e)) ->
  (forall p x h ic core s1,
     let rh := parse_rh (env_payload RH_LEN rx) in
     length rx = env_len RH_LEN ->
     ix s (KSid (rh_sidi rh)) = Some p -> pe s p = Some x -> p_handshake x = Some h ->
     hs_sid h = rh_sidi rh -> hs_next h = ExpRespHello ->
     handle_rh_compute P s h rh = Some (ic, core) ->
     st_rel s s1 p (rh_peer now x h core) (ix_add (ix_ses_take (ix s) x) (hs_sid h) p) ->
     good P s s1 ->
     (check_seal P s (p_alg x) RH_LEN rx = false -> Q s1 (Err ESeal)) /\
     (forall s2, check_seal P s (p_alg x) RH_LEN rx = true ->
        let msg := ic_msg now x h core ic tx in
        s2 = with_peer p (set_handshake (Some (stored now c msg (erased h)))
                            (rh_peer now x h core)) s1 ->
        good P s s2 ->
        Q s2 (Ok {| mr_exchanged := Some p; mr_resp := Some msg |}))) ->
  wp (msg_resp_hello P now c rx tx) Q s.
Proof.
  intros I T HE HO. unfold msg_resp_hello. wstep. wstep; [|apply HE].
  assert (length rx = env_len RH_LEN) as L by (now apply Nat.eqb_eq).
  pose proof (wf_rx_rh rx L) as WF. cbn zeta in HO.
  set (rh := parse_rh (env_payload RH_LEN rx)) in *.
  wstep. apply wp_handle_resp_hello; auto.
  intros p x h ic core s1 Hi Hp Hh Hs Hn Hc R G. cbv beta iota.
  destruct (HO p x h ic core s1) as [Q1 Q2]; auto.
  pose proof (st_rel_self _ _ _ _ _ R) as X1.
  wstep. wstep. wstep. wstep. wstep.
  assert (check_seal P s1 (p_alg x) RH_LEN rx = check_seal P s (p_alg x) RH_LEN rx) as CS.
  { unfold check_seal. now rewrite (ev_pk _ _ (g_evo _ _ _ G)). }
  cbn [p_alg set_handshake set_session].
  wstep; [|apply Q1; congruence].
  wstep. eapply wp_store_msg; [exact X1|reflexivity|]. cbv beta iota. wstep.
  apply Q2; [congruence|reflexivity|].
  eapply good_trans; [exact G|]. eapply good_put_hs; [apply G|exact X1|reflexivity|reflexivity|].
  apply wf_stored.
  - destruct (wp_hs _ (i_wf P s I p x Hp) h Hh) as (W1 & W2 & W3 & W4). repeat split; auto.
  - eapply msg_len_2500; [|exact small_ic]. apply commit_msg_len; [|now apply ic_fits].
    apply ser_ic_len. eapply wf_ic_of; eauto.
Qed.

(** * InitConf *)

(** Good, and the response cache is untouched. *)
Definition keep (s s' : srv) : Prop :=
  good P s s' /\ (forall h, ix s' (KKnown h) = ix s (KKnown h)).
Lemma keep_refl s : inv P s -> keep s s.
Proof. intros I. split; auto. now apply good_refl. Qed.
Lemma keep_trans a b c : keep a b -> keep b c -> keep a c.
Proof. intros [A B] [A' B']. split; [eapply good_trans; eauto|]. intros h. now rewrite B'. Qed.

Lemma ix_ses_take_known f x h : ix_ses_take f x (KKnown h) = f (KKnown h).
Proof.
  unfold ix_ses_take, ix_drop. destruct (p_session x); auto. now destruct (hs_has_id _ _).
Qed.
Lemma ix_hs_take_known f x h : ix_hs_take f x (KKnown h) = f (KKnown h).
Proof.
  unfold ix_hs_take, ix_drop. destruct (p_handshake x); auto. now destruct (ses_has_id _ _).
Qed.
Lemma ix_ic_known f x u p h : ix_ic f x u p (KKnown h) = f (KKnown h).
Proof. unfold ix_ic. rewrite ix_hs_take_known. unfold ix_add. cbn [ikey_eqb].
  apply ix_ses_take_known. Qed.

(** What a failed attempt may leave behind: nothing, or a lost session. *)
Definition ic_failed (s : srv) (ic : init_conf) (a : halg) (s' : srv) : Prop :=
  (s' = s /\ exists e, ic_accept P s ic a = inr e) \/
  (exists p x bno core q,
     ic_accept P s ic a = inl (p, x, bno, core) /\ q <> p /\
     ix_ses_take (ix s) x (KSid (ic_sidr ic)) = Some q /\
     st_rel s s' p (set_session None (set_biscuit_used bno x)) (ix_ses_take (ix s) x)).

Lemma wp_try_init_conf now ic (Q : srv -> res err ((nat * empty_data) * halg) -> Prop) s :
  inv P s -> wf_ic ic ->
  (forall s1 s2, ic_failed s ic Shake s1 -> ic_failed s1 ic Blake s2 ->
     keep s s1 -> keep s s2 -> Q s2 (Err ENoValidHash)) ->
  (forall s0 a p x bno core s1,
     (a = Shake /\ s0 = s \/ a = Blake /\ ic_failed s ic Shake s0) ->
     keep s s0 -> keep s s1 ->
     ic_accept P s0 ic a = inl (p, x, bno, core) ->
     (ix_ses_take (ix s0) x (KSid (ic_sidr ic)) = None \/
      ix_ses_take (ix s0) x (KSid (ic_sidr ic)) = Some p) ->
     st_rel s0 s1 p (ic_peer P now x bno core) (ix_ic (ix s0) x (ic_session P now x core) p) ->
     Q s1 (Ok ((p, rc_of P (ic_session P now x core)), a))) ->
  wp (try_hashes (handle_init_conf P now ic)) Q s.
Proof.
  intros I W HE HO. apply wp_try_hashes.
  assert (forall s0, ic_failed s ic Shake s0 -> keep s s0 ->
    wp (handle_init_conf P now ic Blake)
      (fun s2 r => match r with
                   | Ok a => Q s2 (Ok (a, Blake))
                   | Err _ => Q s2 (Err ENoValidHash)
                   | Panic => Q s2 Panic
                   end) s0) as K.
  { intros s0 F0 K0. apply wp_handle_init_conf; auto.
    - apply K0.
    - intros e E. eapply HE; eauto. left. eauto.
    - intros p x bno core s2 q E Nq Eq R G. eapply HE; eauto.
      + right. do 5 eexists. eauto.
      + eapply keep_trans; [exact K0|]. split; auto. intros h.
        rewrite (sr_ix _ _ _ _ _ R). apply ix_ses_take_known.
    - intros p x bno core s2 E SF R G. eapply HO; eauto.
      eapply keep_trans; [exact K0|]. split; auto. intros h.
      rewrite (sr_ix _ _ _ _ _ R). apply ix_ic_known. }
  apply wp_handle_init_conf; auto.
  - intros e E. apply K; [left; eauto|now apply keep_refl].
  - intros p x bno core s' q E Nq Eq R G. apply K.
    + right. do 5 eexists. eauto.
    + split; auto. intros h. rewrite (sr_ix _ _ _ _ _ R). apply ix_ses_take_known.
  - intros p x bno core s' E SF R G. eapply HO; eauto; [now apply keep_refl|].
    split; auto. intros h. rewrite (sr_ix _ _ _ _ _ R). apply ix_ic_known.
Qed.

Definition cached_msg (x : peer) (k : known) : bytes :=
  commit_msg P x MEmptyData ED_LEN (env_payload ED_LEN (kr_response k)) (kr_response k).
Definition new_known (now : time) (s : srv) (rx tx : bytes) (rc : empty_data) : known :=
  {| kr_received := now; kr_mac := known_hash P s rx;
     kr_response := firstn 4 tx ++ ser_ed rc ++ slice (4 + ED_LEN) 32 tx |}.

Lemma rc_of_wf u : wf_ses u -> wf_ed (rc_of P u).
Proof.
  intros (A & B). unfold rc_of, wf_ed. cbn [ed_sid ed_ctr ed_auth].
  split; [exact B|]. split; [apply le_enc_length|apply aead_enc_len].
Qed.

Lemma wf_new_known now s rx tx rc :
  wf_ed rc -> env_len RH_LEN <= length tx -> wf_known (new_known now s rx tx rc).
Proof.
  intros W L. unfold wf_known, new_known. cbn [kr_response].
  assert (length (ser_ed rc) = ED_LEN) as E by now apply ser_ed_len.
  rewrite !app_length, E, firstn_length, slice_length; unfold env_len, RH_LEN, ED_LEN in *; lia.
Qed.

Lemma wp_msg_init_conf now rx tx (Q : srv -> res err msg_result -> Prop) s :
  inv P s -> env_len RH_LEN <= length tx ->
  (forall e, Q s (Err e)) ->
  (forall p x k, length rx = env_len IC_LEN ->
     ix s (KKnown (known_hash P s rx)) = Some p -> pe s p = Some x -> p_known x = Some k ->
     kr_mac k = known_hash P s rx ->
     check_seal P s (p_alg x) IC_LEN rx = true ->
     Q s (Ok {| mr_exchanged := None; mr_resp := Some (cached_msg x k) |})) ->
  (forall e s1 s2,
     let ic := parse_ic (env_payload IC_LEN rx) in
     length rx = env_len IC_LEN ->
     ix s (KKnown (known_hash P s rx)) = None ->
     ic_failed s ic Shake s1 -> ic_failed s1 ic Blake s2 -> keep s s1 -> keep s s2 ->
     Q s2 (Err e)) ->
  (forall s0 a p x bno core s1,
     let ic := parse_ic (env_payload IC_LEN rx) in
     let u := ic_session P now x core in
     length rx = env_len IC_LEN ->
     ix s (KKnown (known_hash P s rx)) = None ->
     (a = Shake /\ s0 = s \/ a = Blake /\ ic_failed s ic Shake s0) ->
     keep s s0 -> keep s s1 ->
     ic_accept P s0 ic a = inl (p, x, bno, core) ->
     (ix_ses_take (ix s0) x (KSid (ic_sidr ic)) = None \/
      ix_ses_take (ix s0) x (KSid (ic_sidr ic)) = Some p) ->
     st_rel s0 s1 p (ic_peer P now x bno core) (ix_ic (ix s0) x u p) ->
     (halg_eqb (p_alg x) a = false -> Q s1 (Err EHashMismatch)) /\
     (p_alg x = a -> check_seal P s a IC_LEN rx = false -> Q s1 (Err ESeal)) /\
     (forall s2, p_alg x = a -> check_seal P s a IC_LEN rx = true ->
        let x2 := set_known (Some (new_known now s rx tx (rc_of P u)))
                    (ic_peer P now x bno core) in
        st_rel s1 s2 p x2
          (fun k => if ikey_eqb k (KKnown (known_hash P s rx)) then Some p
                    else ix_known_rm (ix s1) x k) ->
        good P s s2 ->
        Q s2 (Ok {| mr_exchanged := Some p;
                    mr_resp := Some (commit_msg P x2 MEmptyData ED_LEN (ser_ed (rc_of P u)) tx) |}))) ->
  wp (msg_init_conf P now rx tx) Q s.
Proof.
  intros I T HE HC HF HO. unfold msg_init_conf. wstep. wstep; [|apply HE].
  assert (length rx = env_len IC_LEN) as L by (now apply Nat.eqb_eq).
  pose proof (wf_rx_ic rx L) as WF. cbn zeta in HO, HF.
  set (ic := parse_ic (env_payload IC_LEN rx)) in *.
  wstep. wstep. fold (ix s (KKnown (known_hash P s rx))).
  destruct (ix s (KKnown (known_hash P s rx))) as [p|] eqn:EK.
  - destruct (i_known1 P s I _ _ EK) as (x & k & Hp & Hk & Hm).
    wstep. wstep. wstep. wstep; [|apply HE]. wstep. eapply wp_unwrap; [exact Hk|].
    cbv beta iota. wstep. eapply HC; eauto.
  - wstep. apply wp_try_init_conf; auto.
    { intros s1 s2 F1 F2 K1 K2. cbv beta iota. eapply HF; eauto. }
    intros s0 a p x bno core s1 HA K0 K1 HI SF R. cbv beta iota.
    destruct (HO s0 a p x bno core s1) as (Q1 & Q2 & Q3); auto.
    pose proof (st_rel_self _ _ _ _ _ R) as X1.
    wstep. unfold verify_hash_choice. wstep. wstep. cbn [p_alg ic_peer set_handshake set_session set_biscuit_used].
    wstep; [|now apply Q1].
    assert (p_alg x = a) as Ea by (now apply halg_eqb_eq).
    wstep. wstep. wstep.
    pose proof (ev_pk _ _ (g_evo _ _ _ (proj1 K1))) as EP.
    pose proof (ev_kh _ _ (g_evo _ _ _ (proj1 K1))) as EH.
    assert (check_seal P s1 a IC_LEN rx = check_seal P s a IC_LEN rx) as CS.
    { unfold check_seal. now rewrite EP. }
    assert (known_hash P s1 rx = known_hash P s rx) as KH.
    { unfold known_hash. now rewrite EH. }
    rewrite CS, KH. wstep; [|now apply Q2].
    wstep. eapply wp_known_insert; [exact X1| |].
    + intros v Hv. erewrite (i_known2 P s1); [discriminate|apply K1|exact X1|exact Hv].
    + intros s2 R2. cbv beta iota.
      pose proof (st_rel_self _ _ _ _ _ R2) as X2. wstep. wstep. wstep.
      eapply Q3; eauto.
      assert (wf_ses (ic_session P now x core)) as WS.
      { destruct (wp_ses _ (i_wf P s1 (g_inv _ _ _ (proj1 K1)) p _ X1) _ eq_refl) as [W1 W2].
        split; auto. }
      eapply good_trans; [apply K1|]. eapply good_known_insert; [apply K1|exact X1| | |exact R2].
      * apply (wf_new_known now s rx tx); auto. now apply rc_of_wf.
      * cbn [kr_mac]. rewrite (proj2 K1). exact EK.
Qed.

(** * EmptyData and CookieReply *)

Lemma wp_msg_empty_data rx (Q : srv -> res err msg_result -> Prop) s :
  inv P s ->
  (forall e, Q s (Err e)) ->
  (forall p x h u,
     let rc := parse_ed (env_payload ED_LEN rx) in
     length rx = env_len ED_LEN ->
     ix s (KSid (ed_sid rc)) = Some p -> pe s p = Some x -> p_handshake x = Some h ->
     hs_sid h = ed_sid rc -> hs_next h = ExpRespConf -> p_session x = Some u ->
     check_seal P s (p_alg x) ED_LEN rx = true ->
     (se_txnt u <= le_dec (ed_ctr rc))%N ->
     let x1 := set_session (Some (set_txnt (le_dec (ed_ctr rc)) u)) x in
     (aead_dec P (se_txkt u) (ed_ctr rc ++ zeros 4) [] (ed_auth rc) = None ->
      good P s (with_peer p x1 s) -> Q (with_peer p x1 s) (Err EDecrypt)) /\
     (forall s' pt,
        aead_dec P (se_txkt u) (ed_ctr rc ++ zeros 4) [] (ed_auth rc) = Some pt ->
        st_rel s s' p (set_handshake None x1) (ix_hs_take (ix s) x1) ->
        good P s s' ->
        Q s' (Ok {| mr_exchanged := None; mr_resp := None |}))) ->
  wp (msg_empty_data P rx) Q s.
Proof.
  intros I HE HO. unfold msg_empty_data. wstep. wstep; [|apply HE].
  assert (length rx = env_len ED_LEN) as L by (now apply Nat.eqb_eq).
  wstep. apply wp_handle_resp_conf; auto.
  intros p x h u rc Hi Hp Hh Hs Hn Hu Hc Ht x1.
  destruct (HO p x h u L Hi Hp Hh Hs Hn Hu Hc Ht) as [Q1 Q2]. split; [exact Q1|].
  intros s' pt D R G. cbv beta iota. wstep. eapply Q2; eauto.
Qed.

Lemma wp_msg_cookie_reply now rx (Q : srv -> res err msg_result -> Prop) s :
  inv P s ->
  (forall e, Q s (Err e)) ->
  (forall p x h mac,
     let cr := parse_cr rx in
     length rx = env_len IH_LEN ->
     ix s (KSid (cr_sid cr)) = Some p -> pe s p = Some x -> has_id (cr_sid cr) x = true ->
     p_handshake x = Some h -> last_mac h = Some mac ->
     let d := dec_in_place P (hmix P Shake (d_cookie_key P Shake) (p_spkt x)) mac (cr_cookie cr) in
     let h1 := set_hs_cookie {| cs_created := now; cs_value := fst d |} h in
     (snd d = false ->
      good P s (with_peer p (set_handshake (Some h1) x) s) ->
      Q (with_peer p (set_handshake (Some h1) x) s) (Err EDecrypt)) /\
     (snd d = true ->
      good P s (with_peer p (set_handshake (Some (set_retry now (hs_tx_count h + 1) h1)) x) s) ->
      Q (with_peer p (set_handshake (Some (set_retry now (hs_tx_count h + 1) h1)) x) s)
        (Ok {| mr_exchanged := None; mr_resp := None |}))) ->
  wp (msg_cookie_reply P now rx) Q s.
Proof.
  intros I HE HO. unfold msg_cookie_reply. wstep. wstep; [|apply HE].
  assert (length rx = env_len IH_LEN) as L by (now apply Nat.eqb_eq).
  wstep. apply wp_handle_cookie_reply; auto.
  intros p x h mac Hi Hp Hd Hh Hm d h1.
  destruct (HO p x h mac L Hi Hp Hd Hh Hm) as [Q1 Q2]. split; [exact Q1|].
  intros E G. cbv beta iota. wstep. now apply Q2.
Qed.

(** * Every message call *)

(** The postcondition of calls: no panic, invariant kept. *)
Definition fine {A} (s : srv) (s' : srv) (r : res err A) : Prop := good P s s' /\ r <> Panic.

Lemma fine_err {A} s e : inv P s -> @fine A s s (Err e).
Proof. intros I. split; [now apply good_refl|discriminate]. Qed.
Lemma fine_ok {A} s (a : A) : inv P s -> fine s s (Ok a).
Proof. intros I. split; [now apply good_refl|discriminate]. Qed.

Lemma handle_msg_fine now c rx tx s :
  inv P s -> env_len RH_LEN <= length tx ->
  wp (handle_msg P now c rx tx) (fine s) s.
Proof.
  intros I T. unfold handle_msg. destruct rx as [|b l] eqn:Erx; [now apply wp_fail, fine_err|].
  rewrite <- Erx in *. clear Erx.
  destruct (mt_of b) as [t|]; [|now apply wp_fail, fine_err].
  rewrite leb_ltb_false by exact T. destruct t.
  - unfold wp. rewrite msg_init_hello_eq by exact I. cbn zeta.
    destruct (Nat.eqb _ _); [|now apply fine_err].
    destruct (ih_try _ _) as [[[[p x] ck] a]|]; [|now apply fine_err].
    cbn [fst snd]. split; [now apply after_biscuit_good|].
    destruct (negb _); [discriminate|]. destruct (negb _); discriminate.
  - apply wp_msg_resp_hello; auto; [intros; now apply fine_err|].
    intros. split; [|intros]; split; auto; discriminate.
  - apply wp_msg_init_conf; auto.
    + intros; now apply fine_err.
    + intros; now apply fine_ok.
    + intros. split; [apply H4|discriminate].
    + intros. split; [|split]; intros; split; auto; try discriminate; apply H3.
  - apply wp_msg_empty_data; auto; [intros; now apply fine_err|].
    intros. split; intros; split; auto; discriminate.
  - apply wp_msg_cookie_reply; auto; [intros; now apply fine_err|].
    intros. split; intros; split; auto; discriminate.
Qed.

(** * Under load *)

Definition cs_choice (now : time) (c : coins) (s : srv) : srv * list bool :=
  let t := cs_created (s_cs0 s) in
  let u := cs_created (s_cs1 s) in
  let young := if (t >=? u)%Z then false else true in
  let old := negb young in
  let l := (if live_secret now (get_cs young s) then [young] else [])
           ++ (if live_secret now (get_cs old s) then [old] else []) in
  match l with
  | [] => (set_cs old {| cs_created := now; cs_value := c_secret c |} s, [old])
  | _ => (s, l)
  end.

Lemma cookie_secrets_eq now c s :
  active_or_retired_cookie_secrets now c s =
  (fst (cs_choice now c s), Ok (snd (cs_choice now c s))).
Proof.
  unfold active_or_retired_cookie_secrets, bind, get, cs_choice.
  destruct (_ ++ _); reflexivity.
Qed.

Lemma cs_choice_frame now c s :
  let s' := fst (cs_choice now c s) in
  s_sskm s' = s_sskm s /\ s_spkm s' = s_spkm s /\ s_bctr s' = s_bctr s /\
  s_bk0 s' = s_bk0 s /\ s_bk1 s' = s_bk1 s /\
  s_peers s' = s_peers s /\ s_index s' = s_index s /\ s_khkey s' = s_khkey s /\
  s_poll_off s' = s_poll_off s.
Proof. unfold cs_choice. destruct (_ ++ _); cbn [fst]; repeat split; reflexivity. Qed.

Lemma cs_choice_good now c s : inv P s -> good P s (fst (cs_choice now c s)).
Proof.
  intros I. destruct (cs_choice_frame now c s) as (A & B & C & _ & _ & D & E & F & _).
  apply good_frame; auto. rewrite C. apply (i_bctr P s I).
Qed.

Lemma cs_choice_nonempty now c s : exists i l, snd (cs_choice now c s) = i :: l.
Proof. unfold cs_choice. destruct (_ ++ _) as [|i l]; cbn [snd]; eauto. Qed.

Lemma fine_trans {A} s1 s2 s3 (r : res err A) : good P s1 s2 -> fine s2 s3 r -> fine s1 s3 r.
Proof. intros G [G' N]. split; auto. eapply good_trans; eauto. Qed.

Lemma ih_fits (tx : bytes) : env_len RH_LEN <= length tx -> env_len IH_LEN <= length tx.
Proof. unfold env_len, RH_LEN, IH_LEN. lia. Qed.

Lemma handle_msg_under_load_fine now c rx tx host s :
  inv P s -> env_len RH_LEN <= length tx ->
  wp (handle_msg_under_load P now c rx tx host) (fine s) s.
Proof.
  intros I T. unfold handle_msg_under_load.
  destruct rx as [|b l] eqn:Erx; [now apply wp_fail, fine_err|]. rewrite <- Erx in *.
  destruct (mt_of b) as [t|]; [|now apply wp_fail, fine_err].
  destruct t; try (now apply wp_fail, fine_err); [|now apply handle_msg_fine].
  apply wp_bind. unfold wp at 1. rewrite cookie_secrets_eq. cbn [fst snd].
  pose proof (cs_choice_good now c s I) as G.
  destruct (cs_choice_nonempty now c s) as (i & l' & El). rewrite El.
  set (s1 := fst (cs_choice now c s)) in *.
  wstep. wstep. wstep. wstep; [|split; auto; discriminate].
  destruct (cookie_valid P s1 host rx (i :: l')).
  - eapply wp_mono; [apply handle_msg_fine; [apply G|exact T]|].
    intros s2 r F. eapply fine_trans; eauto.
  - wstep. cbn [hd_error]. wstep. rewrite leb_ltb_false by now apply ih_fits.
    wstep. split; auto; discriminate.
Qed.

(** * Other calls *)

Lemma initiate_fine now c p tx s :
  inv P s -> wf_coins c -> p < npeers s -> env_len IH_LEN <= length tx ->
  wp (initiate_handshake P now c p tx) (fine s) s.
Proof.
  intros I W L T. destruct (pe s p) as [x|] eqn:X.
  2:{ apply nth_error_None in X. unfold npeers in L. lia. }
  eapply wp_initiate_handshake; [exact X|exact T| |].
  - intros s1 s2 _ R E. subst s2.
    assert (good P s s1) as G.
    { eapply good_hs_insert; [exact I|exact X| |exact R]. now apply wf_ini_hs. }
    split; [|discriminate]. eapply good_trans; [exact G|].
    eapply good_put_hs; [apply G|eapply st_rel_self; eauto|reflexivity|reflexivity|].
    apply wf_stored; [now apply wf_ini_hs|].
    eapply msg_len_2500; [now apply ih_msg_len|exact small_ih].
  - intros. now apply fine_err.
Qed.

Lemma retransmit_fine p tx s :
  inv P s -> p < npeers s -> env_len IH_LEN <= length tx ->
  wp (retransmit_handshake P p tx) (fun s' r => s' = s /\ r <> Panic) s.
Proof.
  intros I L T. destruct (pe s p) as [x|] eqn:X.
  2:{ apply nth_error_None in X. unfold npeers in L. lia. }
  unfold retransmit_handshake, apply_retransmission, get_hs. wstep. wstep. wstep.
  wstep; [|split; [reflexivity|discriminate]].
  match goal with H : p_handshake x = Some ?h |- _ =>
    destruct (wp_hs _ (i_wf P s I p x X) h H) as (W1 & W2 & _) end.
  rewrite W1, leb_ltb_false by exact W2.
  rewrite cpy_min_len, leb_ltb_false by exact T.
  wstep. wstep. wstep. split; [reflexivity|discriminate].
Qed.

Lemma osk_fine p s : inv P s -> p < npeers s ->
  wp (osk P p) (fun s' r => s' = s /\ r <> Panic) s.
Proof.
  intros I L. destruct (pe s p) as [x|] eqn:X.
  2:{ apply nth_error_None in X. unfold npeers in L. lia. }
  unfold osk, osk_with_domain_separator. wstep. wstep. wstep. wstep. wstep.
  wstep; [wstep|]; split; try reflexivity; discriminate.
Qed.

Lemma server_new_inv sk pk b0 b1 k0 k1 hk : inv P (server_new sk pk b0 b1 k0 k1 hk).
Proof.
  split; try discriminate; try reflexivity; intros p x H; destruct p; discriminate.
Qed.

Lemma wf_new_peer psk pk a ds : wf_peer (new_peer psk pk a ds).
Proof. split; try discriminate. reflexivity. Qed.

Lemma add_peer_eq psk pk a ds s :
  add_peer P psk pk a ds s =
  match ix s (KPeer (peer_id P a pk)) with
  | Some _ => (s, Err EPeerExists)
  | None =>
      (set_peers (s_peers s ++ [new_peer psk pk a ds])
         (set_index (idx_set (KPeer (peer_id P a pk)) (npeers s) (s_index s)) s),
       Ok (npeers s))
  end.
Proof.
  unfold add_peer, bind, get, ix, pidt. cbn [p_alg p_spkt new_peer].
  destruct (idx_get _ _); reflexivity.
Qed.

Lemma add_peer_fine psk pk a ds s :
  inv P s ->
  wp (add_peer P psk pk a ds)
    (fun s' r => inv P s' /\ evo s s' /\ r <> Panic /\
       match r with Ok n => n = npeers s /\ npeers s' = S (npeers s) | _ => s' = s end) s.
Proof.
  intros I. unfold wp. rewrite add_peer_eq. destruct (ix s (KPeer (peer_id P a pk))) as [q|] eqn:E.
  { cbn [fst snd]. split; [exact I|]. split; [apply evo_refl|]. split; [discriminate|reflexivity]. }
  cbn [fst snd].
  set (s' := set_peers _ _).
  assert (forall k, ix s' k = if ikey_eqb k (KPeer (peer_id P a pk)) then Some (npeers s)
                              else ix s k) as HX.
  { intros k. unfold ix, s'. cbn [s_index set_peers set_index]. apply idx_get_set. }
  assert (forall q x, pe s q = Some x -> pe s' q = Some x) as HP.
  { intros q x Hq. unfold pe, s'. cbn [s_peers set_peers]. rewrite nth_error_app1; auto.
    eapply pe_lt; eauto. }
  assert (pe s' (npeers s) = Some (new_peer psk pk a ds)) as HN.
  { unfold pe, s'. cbn [s_peers set_peers]. rewrite nth_error_app2 by (unfold npeers; lia).
    unfold npeers. now rewrite Nat.sub_diag. }
  assert (forall q x, pe s' q = Some x ->
            (q = npeers s /\ x = new_peer psk pk a ds) \/ (q <> npeers s /\ pe s q = Some x)) as HI.
  { intros q x Hq. destruct (Nat.lt_ge_cases q (npeers s)) as [L|L].
    - right. split; [lia|]. unfold pe, s' in Hq. cbn [s_peers set_peers] in Hq.
      rewrite nth_error_app1 in Hq; auto.
    - destruct (Nat.eq_dec q (npeers s)) as [->|N]; [left; split; congruence|].
      exfalso. apply pe_lt in Hq. unfold npeers, s' in *. cbn [s_peers set_peers] in Hq.
      rewrite app_length in Hq. cbn [length] in Hq. lia. }
  assert (inv P s') as I'.
  { split.
    - intros id q Hq. rewrite HX in Hq.
      destruct (ikey_eqb (KPeer id) (KPeer (peer_id P a pk))) eqn:F.
      + injection Hq as <-. apply ikey_eqb_eq in F. injection F as ->. eauto.
      + destruct (i_peer1 P s I _ _ Hq) as (x & X & Y). eauto.
    - intros q x Hq. rewrite HX. destruct (HI q x Hq) as [[-> ->]|[N Hs]].
      + change (pidt P (new_peer psk pk a ds)) with (peer_id P a pk). now rewrite ikey_eqb_refl.
      + pose proof (i_peer2 P s I q x Hs) as H2.
        destruct (ikey_eqb (KPeer (pidt P x)) (KPeer (peer_id P a pk))) eqn:F; auto.
        apply ikey_eqb_eq in F. injection F as F. rewrite F in H2. congruence.
    - intros id q Hq. rewrite HX in Hq. cbn [ikey_eqb] in Hq.
      destruct (i_sid P s I _ _ Hq) as (x & X & Y). eauto.
    - intros id q Hq. rewrite HX in Hq. cbn [ikey_eqb] in Hq.
      destruct (i_known1 P s I _ _ Hq) as (x & k & X & Y). eauto.
    - intros q x k Hq Hk. rewrite HX. cbn [ikey_eqb].
      destruct (HI q x Hq) as [[-> ->]|[N Hs]]; [discriminate|].
      eapply (i_known2 P s I); eauto.
    - apply (i_bctr P s I).
    - intros q x Hq. destruct (HI q x Hq) as [[-> ->]|[N Hs]]; [apply wf_new_peer|].
      eapply (i_wf P s I); eauto. }
  assert (npeers s' = S (npeers s)) as HS.
  { unfold npeers, s'. cbn [s_peers set_peers]. rewrite app_length. cbn [length]. lia. }
  split; [exact I'|]. split; [|split; [discriminate|split; [reflexivity|exact HS]]].
  split; try reflexivity; [lia|].
  intros q x Hq. exists x. split; [auto|apply peer_evo_refl].
Qed.

End WithPrims.
