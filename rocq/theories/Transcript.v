(** What the fields of the messages authenticate, written from the protocol description
    (papers/whitepaper.md, sections "Packet formats" and "Protocol"), by byte offsets and lists
    of mixed values rather than through the model's functions.  Used in the statements of properties. *)
From Verif Require Import Base ConstTime Prims HashDomains Wire Server Protocol Wp Inv Rules Calls PollRules System Trans Spec.
From Coq Require Strings.String.
Import (notations) Coq.Strings.String.

(** InitHello: header (4), sidi (4), epki (800), sctr (156), pidi_ct (48), auth (16), mac, cookie. *)
Definition hello_sidi (m : bytes) : bytes := slice 4 4 m.
Definition hello_epki (m : bytes) : bytes := slice 8 800 m.
Definition hello_sctr (m : bytes) : bytes := slice 808 156 m.
Definition hello_pidct (m : bytes) : bytes := slice 964 48 m.
Definition hello_auth (m : bytes) : bytes := slice 1012 16 m.
(** RespHello: header, sidr, sidi, ecti (768), scti (156), auth (16), biscuit (116), mac, cookie. *)
Definition resp_ecti (m : bytes) : bytes := slice 12 768 m.
Definition resp_scti (m : bytes) : bytes := slice 780 156 m.
Definition resp_auth (m : bytes) : bytes := slice 936 16 m.
(** InitConf: header, sidi, sidr, biscuit (116), auth (16), mac, cookie. *)
Definition conf_auth (m : bytes) : bytes := slice 128 16 m.
(** EmptyData: header, sid (4), ctr (8), auth (16), mac, cookie. *)
Definition data_sid (m : bytes) : bytes := slice 4 4 m.
Definition data_ctr (m : bytes) : bytes := slice 8 8 m.
Definition data_auth (m : bytes) : bytes := slice 16 16 m.
(** CookieReply: header, sid (4), nonce and sealed cookie (56), padding. *)
Definition creply_sid (m : bytes) : bytes := slice 4 4 m.
Definition creply_cookie (m : bytes) : bytes := slice 8 56 m.
(** An opened biscuit: peer id (32), number (12), chaining key (32). *)
Definition biscuit_chain (pt : bytes) : bytes := slice 44 32 pt.

Section WithPrims.
Context (P : prims).

(** One value mixed into the chaining key, and many. *)
Definition mix1 (a : halg) (ck x : bytes) : bytes := 
  hashed P a ck [domain P a ["chaining key extract"%string; "mix"%string]; x].
Definition mixed (a : halg) (ck : bytes) (items : list bytes) : bytes := fold_left (mix1 a) items ck.
(** The key derived from a chaining key for the tags of the handshake. *)
Definition tag_key (a : halg) (ck : bytes) : bytes := 
  khash P a ck (domain P a ["chaining key extract"%string; "handshake encryption"%string]).
Definition chain_start (a : halg) (pk : bytes) : bytes := 
  khash P a (domain P a ["chaining key init"%string]) pk.
Definition opens (k ct pt : bytes) : Prop := aead_dec P k (zeros 12) [] ct = Some pt.

(** InitHello [m] authenticates, for the server [s] and hash version [a], the peer with id [pid],
    public key [pk] and pre-shared key [psk]. *)
Definition hello_authentic (s : srv) (a : halg) (m pid pk psk : bytes) : Prop :=
  let ck1 := mixed a (chain_start a (s_spkm s))
               [hello_sidi m; hello_epki m; s_spkm s; skem_dec P (s_sskm s) (hello_sctr m);
                hello_sctr m] in
  let ck2 := mixed a ck1 [hello_pidct m; pk; psk] in
  opens (tag_key a ck1) (hello_pidct m) pid /\ exists e, opens (tag_key a ck2) (hello_auth m) e.

(** The chaining key of the initiator after RespHello [m], before its tag. *)
Definition resp_chain (s : srv) (h : ihs) (m : bytes) : bytes :=
  mixed (hc_alg (hs_cor h)) (hc_ck (hs_cor h))
    [resp_sidr m; resp_sidi m;
     hs_epki h; ekem_dec P (hs_eski h) (resp_ecti m); resp_ecti m;
     s_spkm s; skem_dec P (s_sskm s) (resp_scti m); resp_scti m; resp_biscuit m].
(** RespHello [m] answers the handshake of the peer record [x]. *)
Definition resp_authentic (s : srv) (x : peer) (m : bytes) : Prop :=
  exists h e, p_handshake x = Some h /\ hs_sid h = resp_sidi m /\ hs_next h = ExpRespHello /\
    opens (tag_key (hc_alg (hs_cor h)) (resp_chain s h m)) (resp_auth m) e.

(** InitConf [m] carries a biscuit of this server for peer record [x] that was not used and is
    confirmed by its tag. *)
Definition conf_authentic (s : srv) (x : peer) (m : bytes) : Prop :=
  exists a pt e,
    biscuit_opens P a (s_spkm s) (named_key s (conf_biscuit m)) (conf_sidi m) (conf_sidr m)
      (conf_biscuit m) pt /\
    biscuit_peer pt = peer_id P (p_alg x) (p_spkt x) /\
    (le_dec (p_biscuit_used x) < biscuit_number pt)%N /\
    let ck1 := mix1 (p_alg x) (biscuit_chain pt) (conf_biscuit m) in
    let t := aead_enc P (tag_key (p_alg x) ck1) (zeros 12) [] [] in
    let ck2 := mixed (p_alg x) ck1 [t; conf_sidi m; conf_sidr m] in
    opens (tag_key (p_alg x) ck2) (conf_auth m) e.

(** * The model's functions in these terms *)

Lemma hello_parse m : length m = 1060 ->
  let ih := parse_ih (env_payload IH_LEN m) in
  ih_sidi ih = hello_sidi m /\ ih_epki ih = hello_epki m /\ ih_sctr ih = hello_sctr m /\
  ih_pidi_ct ih = hello_pidct m /\ ih_auth ih = hello_auth m.
Proof.
  intros L. unfold parse_ih, env_payload, IH_LEN. cbn [ih_sidi ih_epki ih_sctr ih_pidi_ct ih_auth].
  rewrite !slice_slice by lia. auto.
Qed.
Lemma resp_parse m :
  let rh := parse_rh (env_payload RH_LEN m) in
  rh_sidr rh = resp_sidr m /\ rh_sidi rh = resp_sidi m /\ rh_ecti rh = resp_ecti m /\
  rh_scti rh = resp_scti m /\ rh_auth rh = resp_auth m /\ rh_biscuit rh = resp_biscuit m.
Proof.
  unfold parse_rh, env_payload, RH_LEN.
  cbn [rh_sidr rh_sidi rh_ecti rh_scti rh_auth rh_biscuit]. rewrite !slice_slice by lia.
  repeat match goal with |- _ /\ _ => split end; reflexivity.
Qed.
Lemma conf_parse_auth m : ic_auth (parse_ic (env_payload IC_LEN m)) = conf_auth m.
Proof. unfold parse_ic, env_payload, IC_LEN. cbn [ic_auth]. now rewrite !slice_slice by lia. Qed.
Lemma data_parse m :
  let ed := parse_ed (env_payload ED_LEN m) in
  ed_sid ed = data_sid m /\ ed_ctr ed = data_ctr m /\ ed_auth ed = data_auth m.
Proof.
  unfold parse_ed, env_payload, ED_LEN. cbn [ed_sid ed_ctr ed_auth]. rewrite !slice_slice by lia. auto.
Qed.

Lemma dm_opens a ck ct pt ck' : decrypt_and_mix P a ck ct = Some (pt, ck') ->
  opens (tag_key a ck) ct pt /\ ck' = mix1 a ck ct.
Proof.
  unfold decrypt_and_mix, opens. change (ck_key P a ck) with (tag_key a ck).
  destruct (aead_dec _ _ _ _ _); [|discriminate]. intros [= -> <-]. auto.
Qed.

Lemma ih_accept_authentic s m a p x ck : length m = 1060 ->
  ih_accept P s (parse_ih (env_payload IH_LEN m)) a = inl (p, x, ck) ->
  exists pid, hello_authentic s a m pid (p_spkt x) (p_psk x) /\ find_peer s pid = Some p /\
    pe s p = Some x.
Proof.
  intros L H. unfold ih_accept, handle_ih_dec in H.
  destruct (hello_parse m L) as (E1 & E2 & E3 & E4 & E5). cbn zeta in *.
  rewrite E1, E2, E3, E4, E5 in H.
  destruct (decrypt_and_mix _ _ _ _) as [[pid c1]|] eqn:D1 in H; [|discriminate].
  destruct (find_peer s pid) as [q|] eqn:F; [|discriminate].
  destruct (pe s q) as [y|] eqn:Y; [|discriminate].
  destruct (decrypt_and_mix _ _ _ (hello_auth m)) as [[e c2]|] eqn:D2 in H; [|discriminate].
  injection H as <- <- _. exists pid. split; [|auto].
  apply dm_opens in D1. destruct D1 as [O1 ->]. apply dm_opens in D2. destruct D2 as [O2 _].
  split; [exact O1|]. exists e. exact O2.
Qed.

Lemma rh_compute_authentic s x h m ic core :
  p_handshake x = Some h -> hs_sid h = rh_sidi (parse_rh (env_payload RH_LEN m)) ->
  hs_next h = ExpRespHello ->
  handle_rh_compute P s h (parse_rh (env_payload RH_LEN m)) = Some (ic, core) ->
  resp_authentic s x m.
Proof.
  intros Hh Hs Hn H. destruct (resp_parse m) as (E1 & E2 & E3 & E4 & E5 & E6). cbn zeta in *.
  unfold handle_rh_compute in H. rewrite E1, E2, E3, E4, E5, E6 in H.
  destruct (decrypt_and_mix _ _ _ (resp_auth m)) as [[e c2]|] eqn:D in H; [|discriminate].
  apply dm_opens in D. destruct D as [O _].
  exists h, e. rewrite <- E2. split; auto.
Qed.

Lemma ic_accept_authentic s m a p x bno core : inv P s -> length m = 176 ->
  ic_accept P s (parse_ic (env_payload IC_LEN m)) a = inl (p, x, bno, core) ->
  conf_authentic s x m /\ pe s p = Some x.
Proof.
  intros I L H. destruct (ic_accept_spec P s m a p x bno core L H) as (pt & O & -> & F & X & N).
  split; auto. unfold ic_accept in H. destruct (conf_parse m) as (E1 & E2 & E3).
  rewrite E1, E2, E3, <- named_key_slot in H. rewrite (proj1 (biscuit_opens_ad _ _ _ _ _ _ _ _) O) in H.
  cbn [bi_pidi bi_no bi_ck parse_bi] in H.
  change (slice 0 32 pt) with (biscuit_peer pt) in H. rewrite F, X in H.
  unfold handle_ic_ck in H. cbn [hc_alg hc_ck] in H.
  rewrite E1, E2, conf_parse_auth in H.
  destruct (encrypt_and_mix _ _ _ _) as [t c0] eqn:Et in H.
  unfold encrypt_and_mix in Et. injection Et as Et1 Et2.
  destruct (decrypt_and_mix _ _ _ (conf_auth m)) as [[e c2]|] eqn:D in H; [|discriminate].
  apply dm_opens in D. destruct D as [Oe _].
  exists a, pt, e. split; [exact O|]. split.
  { destruct (i_peer1 P s I _ _ F) as (y & Y & E). rewrite X in Y. injection Y as <-. now rewrite <- E. }
  split; [exact N|]. cbn zeta. subst c0 t. exact Oe.
Qed.
End WithPrims.
