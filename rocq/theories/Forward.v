(** Messages that meet their conditions are accepted: the converse direction of [msgstep]. *)
From Verif Require Import Base ConstTime Prims HashDomains Wire Server Protocol Wp Inv Rules Calls PollRules System Trans Spec Transcript.
Local Open Scope m_scope.

Lemma lookup_handshake_hit s id p x h :
  ix s (KSid id) = Some p -> pe s p = Some x -> p_handshake x = Some h -> hs_sid h = id ->
  lookup_handshake id s = (s, Ok (Some p)).
Proof.
  unfold lookup_handshake, bind, get, ix, pe, get_peer. intros -> -> E S.
  rewrite E. subst id. cbn [hs_has_id]. fold (hs_sid h). rewrite bytes_eqb_refl. reflexivity.
Qed.

Lemma lookup_session_any s id p x :
  ix s (KSid id) = Some p -> pe s p = Some x ->
  lookup_session id s = (s, Ok (if ses_has_id id (p_session x) then Some p else None)).
Proof. unfold lookup_session, bind, get, ix, pe, get_peer. now intros -> ->. Qed.

Lemma wp_eq {A} (m : M A) (Q : srv -> res err A -> Prop) s s' r : m s = (s', r) -> Q s' r -> wp m Q s.
Proof. intros E H. unfold wp. now rewrite E. Qed.

Lemma wp_ensure_true b e (Q : srv -> res err unit -> Prop) s :
  b = true -> Q s (Ok tt) -> wp (ensure b e) Q s.
Proof. intros ->. auto. Qed.
Lemma wp_need_some {A} e (o : option A) a (Q : srv -> res err A -> Prop) s :
  o = Some a -> Q s (Ok a) -> wp (need e o) Q s.
Proof. intros ->. auto. Qed.

Ltac fside := fail.

(** One forward step, with the hypotheses deciding every check. *)
Ltac fstep :=
  lazymatch goal with
  | |- wp (ensure _ _) _ _ => apply wp_ensure_true; [first [eassumption|fside]|]; cbv beta iota
  | |- wp (need _ _) _ _ => eapply wp_need_some; [first [eassumption|reflexivity]|]; cbv beta iota
  | |- _ => wstep
  end.

Ltac fside ::= first [now apply Nat.eqb_eq | now apply N.leb_le | match goal with H : p_handshake _ = Some _, H' : hs_next _ = _ |- _ => now rewrite H, H' end].

Section WithPrims.
Context (P : prims).

(** An acknowledgement that meets the checks of [handle_resp_conf] is accepted. *)
Lemma empty_data_accepted now c rx tx s p x h u pt :
  inv P s -> 1100 <= length tx ->
  first_type rx = Some MEmptyData -> length rx = 64 ->
  ix s (KSid (data_sid rx)) = Some p -> pe s p = Some x -> p_handshake x = Some h ->
  hs_sid h = data_sid rx -> hs_next h = ExpRespConf -> p_session x = Some u ->
  check_seal P s (p_alg x) ED_LEN rx = true ->
  (se_txnt u <= le_dec (data_ctr rx))%N ->
  aead_dec P (se_txkt u) (data_ctr rx ++ zeros 4) [] (data_auth rx) = Some pt ->
  exists s', handle_msg P now c rx tx s = (s', Ok (handled None None)) /\
    pe s' p = Some (set_handshake None (set_session (Some (set_txnt (le_dec (data_ctr rx)) u)) x)).
Proof.
  intros I T FT L Hi Hp Hh Hs Hn Hu CS Ht D.
  enough (wp (handle_msg P now c rx tx) (fun s' r => r = Ok (handled None None) /\
    pe s' p = Some (set_handshake None (set_session (Some (set_txnt (le_dec (data_ctr rx)) u)) x))) s) as W.
  { unfold wp in W. destruct W as [W1 W2]. exists (fst (handle_msg P now c rx tx s)).
    split; [rewrite <- W1; apply surjective_pairing|exact W2]. }
  unfold handle_msg. unfold first_type in FT. destruct rx as [|b l] eqn:Erx; [discriminate|].
  rewrite FT. rewrite <- Erx in *. clear Erx FT b l.
  rewrite leb_ltb_false by exact T. unfold msg_empty_data.
  destruct (data_parse rx) as (E1 & E2 & E3).
  repeat fstep. unfold handle_resp_conf. rewrite E1, E2, E3.
  fstep. eapply wp_eq; [eapply lookup_handshake_hit; eauto|]. cbv beta iota.
  repeat fstep. eapply wp_put_peer; [exact Hp|]. cbv beta iota. repeat fstep.
  eapply wp_hs_take; [eapply pe_with_same; exact Hp|]. intros s' R. cbv beta iota. repeat fstep.
  split; [reflexivity|]. exact (st_rel_self _ _ _ _ _ R).
Qed.

(** A CookieReply for a pending handshake that opens is accepted; its content becomes the
    cookie of the handshake. *)
Lemma cookie_reply_accepted now c rx tx s p x h mac v :
  1100 <= length tx ->
  first_type rx = Some MCookieReply -> length rx = 1060 ->
  ix s (KSid (creply_sid rx)) = Some p -> pe s p = Some x -> p_handshake x = Some h ->
  hs_sid h = creply_sid rx -> last_mac h = Some mac ->
  xdec P (hmix P Shake (d_cookie_key P Shake) (p_spkt x)) mac (creply_cookie rx) = Some v ->
  handle_msg P now c rx tx s =
  (with_peer p (set_handshake (Some (set_retry now (hs_tx_count h + 1)
     (set_hs_cookie {| cs_created := now; cs_value := v |} h))) x) s, Ok (handled None None)).
Proof.
  intros T FT L Hi Hp Hh Hs Hm D.
  set (s2 := with_peer p _ s).
  enough (wp (handle_msg P now c rx tx) (fun s' r => (s', r) = (s2, Ok (handled None None))) s) as W.
  { unfold wp in W. rewrite <- W. apply surjective_pairing. }
  unfold handle_msg. unfold first_type in FT. destruct rx as [|b l] eqn:Erx; [discriminate|].
  rewrite FT. rewrite <- Erx in *. clear Erx FT b l.
  rewrite leb_ltb_false by exact T. unfold msg_cookie_reply. repeat fstep.
  unfold handle_cookie_reply. change (cr_sid (parse_cr rx)) with (creply_sid rx).
  change (cr_cookie (parse_cr rx)) with (creply_cookie rx).
  fstep. eapply wp_eq; [eapply lookup_session_any; eauto|]. cbv beta iota. fstep.
  assert (forall Q : srv -> res err (option nat) -> Prop, Q s (Ok (Some p)) ->
    wp (match (if ses_has_id (creply_sid rx) (p_session x) then Some p else None) with
        | Some p0 => ret (Some p0)
        | None => lookup_handshake (creply_sid rx)
        end) Q s) as K.
  { intros Q HQ. destruct (ses_has_id _ _); [exact HQ|].
    eapply wp_eq; [eapply lookup_handshake_hit; eauto|exact HQ]. }
  apply K. cbv beta iota. clear K.
  fstep. fstep. fstep. fstep. fstep. fstep. fstep. fstep.
  unfold dec_in_place. rewrite D. fstep. eapply wp_put_hs; [exact Hp|]. cbv beta iota.
  fstep. apply wp_ensure_true; [reflexivity|]. cbv beta iota. fstep.
  unfold register_immediate_retransmission, get_hs. fstep. fstep.
  eapply wp_get_peer; [eapply pe_with_same; exact Hp|]. cbv beta iota.
  cbn [p_handshake set_handshake]. fstep. eapply wp_put_hs; [eapply pe_with_same; exact Hp|]. cbv beta iota.
  repeat fstep. rewrite with_peer_twice. reflexivity.
Qed.

(** A retransmission of an InitHello repeats the stored message up to the cookie field, which
    holds the current cookie. *)
Lemma retransmit_hello s p x h m tx :
  length (hs_tx_buf h) = 2500 -> 1100 <= length tx ->
  pe s p = Some x -> p_handshake x = Some h -> hs_tx_len h = 1060 ->
  firstn 1060 (hs_tx_buf h) = m ->
  retransmit_handshake P p tx s =
  (s, Ok (firstn 1044 m ++ cookie_of P (cs_value (hs_cookie h)) (firstn 1044 m))).
Proof.
  intros W T Hp Hh Ln Em.
  enough (wp (retransmit_handshake P p tx) (fun s' r => (s', r) = (s, Ok (firstn 1044 m ++
    cookie_of P (cs_value (hs_cookie h)) (firstn 1044 m)))) s) as Wp.
  { unfold wp in Wp. rewrite <- Wp. apply surjective_pairing. }
  unfold retransmit_handshake, apply_retransmission, get_hs.
  assert (length m = 1060) as Lm by (rewrite <- Em, firstn_length, W; reflexivity).
  fstep. fstep. fstep. fstep. rewrite Ln, W, Em.
  rewrite (proj2 (Nat.ltb_ge 2500 1060)) by lia.
  assert (firstn 1060 (cpy_min m tx) = m) as E1.
  { unfold cpy_min. rewrite Nat.min_l by lia. rewrite firstn_app, firstn_all2 by (rewrite firstn_length; lia).
    rewrite firstn_length, Nat.min_l by lia. rewrite Lm, Nat.sub_diag, firstn_O, app_nil_r.
    apply firstn_all2. lia. }
  assert (1060 <= length (cpy_min m tx)) as L1.
  { unfold cpy_min. rewrite app_length, firstn_length, skipn_length. lia. }
  rewrite (proj2 (Nat.ltb_ge _ _)) by exact L1.
  fstep. fstep. fstep. change (env_len IH_LEN) with 1060. rewrite E1.
  unfold seal_cookie. rewrite Hh. unfold env_upto_cookie, IH_LEN. cbn [plus].
  f_equal. f_equal. rewrite firstn_app, firstn_all2.
  - rewrite app_length, cookie_of_len, firstn_length, Nat.min_l by lia. cbn [Nat.add Nat.sub].
    rewrite firstn_O. apply app_nil_r.
  - rewrite app_length, cookie_of_len, firstn_length. lia.
Qed.
End WithPrims.
