(** C75: equal output keys mean matching conversations.  C76: handshakes that cross. *)
From Verif Require Import Base ConstTime Prims HashDomains Wire Server Protocol Wp Inv Rules Calls PollRules System Trans Spec Transcript Demo PSafety PReplay PNotice Forward PRetransmit PCookie PWire PHandshake PDomains PTranscript.
From Coq Require Strings.String.
Import (notations) Coq.Strings.String.

(** * What the two sides did *)

(** From state [s] the server initiated a handshake with peer [p] in the call [c], sending [m1];
    while it was pending it accepted the RespHello [m2] and sent the InitConf [m3], which led
    to [s']. *)
Definition initiator_run (P : prims) (s : srv) (p : nat) (c : call) (m1 m2 m3 : bytes) (s' : srv) : Prop :=
  exists tx1 s1 h s2 c2 tx2,
    reachable P s /\ valid c s /\ c_op c = OInitiate p tx1 /\ exec P c s = (s1, Ok (RSent m1)) /\
    run P s1 h s2 /\ still_pending s1 s2 p /\
    valid c2 s2 /\ c_op c2 = OMsg m2 tx2 /\ is_type x82 m2 /\
    exec P c2 s2 = (s', Ok (RHandled {| mr_exchanged := Some p; mr_resp := Some m3 |})).

(** From state [s] the server answered the InitHello [m1] with the RespHello [m2] in the call
    [c]; while it had the key of the biscuit in [m2] it accepted the InitConf [m3] with this
    biscuit and exchanged a key with [p], which led to [s']. *)
Definition responder_run (P : prims) (s : srv) (p : nat) (c : call) (m1 m2 m3 : bytes) (s' : srv) : Prop :=
  exists s1 r1 h s2 c2 r2,
    reachable P s /\ valid c s /\ received c = Some m1 /\ exec P c s = (s1, r1) /\
    replied r1 m2 /\ is_type x82 m2 /\ run P s1 h s2 /\
    valid c2 s2 /\ received c2 = Some m3 /\ is_type x83 m3 /\ exec P c2 s2 = (s', r2) /\ exchanged r2 p /\
    conf_biscuit m3 = resp_biscuit m2 /\ conf_sidi m3 = resp_sidi m2 /\ conf_sidr m3 = resp_sidr m2 /\
    named_key s2 (resp_biscuit m2) = named_key s1 (resp_biscuit m2) /\
    (* the biscuit is not valid in both versions of the protocol *)
    (forall a a' pt pt',
       biscuit_opens P a (s_spkm s) (named_key s1 (resp_biscuit m2)) (resp_sidi m2) (resp_sidr m2)
         (resp_biscuit m2) pt ->
       biscuit_opens P a' (s_spkm s) (named_key s1 (resp_biscuit m2)) (resp_sidi m2) (resp_sidr m2)
         (resp_biscuit m2) pt' -> a = a').

(** The messages agree in everything but the seal (message authentication code and cookie) and
    the reserved bytes. *)
Definition same_hello (m m' : bytes) : Prop :=
  hello_sidi m = hello_sidi m' /\ hello_epki m = hello_epki m' /\ hello_sctr m = hello_sctr m' /\
  hello_pidct m = hello_pidct m' /\ hello_auth m = hello_auth m'.
Definition same_resp (m m' : bytes) : Prop :=
  resp_sidr m = resp_sidr m' /\ resp_sidi m = resp_sidi m' /\ resp_ecti m = resp_ecti m' /\
  resp_scti m = resp_scti m' /\ resp_biscuit m = resp_biscuit m' /\ resp_auth m = resp_auth m'.
Definition same_conf (m m' : bytes) : Prop :=
  conf_sidi m = conf_sidi m' /\ conf_sidr m = conf_sidr m' /\ conf_auth m = conf_auth m'.

(** One side's view of a handshake: version, public keys of initiator and responder, pre-shared
    key, messages, the three shared keys of the KEMs, and the separator of the output key. *)
Record view := {
  w_alg : halg; w_pki : bytes; w_pkr : bytes; w_psk : bytes;
  w_m1 : bytes; w_m2 : bytes; w_m3 : bytes;
  w_k1 : bytes; w_k2 : bytes; w_k3 : bytes;
  w_ds : osk_ds
}.
Definition initiator_view (P : prims) (s : srv) (x : peer) (c : call) (m1 m2 m3 : bytes) : view :=
  {| w_alg := p_alg x; w_pki := s_spkm s; w_pkr := p_spkt x; w_psk := p_psk x;
     w_m1 := m1; w_m2 := m2; w_m3 := m3;
     w_k1 := fst (skem_enc P (c_enc1 (c_coins c)) (p_spkt x));
     w_k2 := ekem_dec P (fst (ekem_gen P (c_kp (c_coins c)))) (resp_ecti m2);
     w_k3 := skem_dec P (s_sskm s) (resp_scti m2);
     w_ds := p_ds x |}.
Definition responder_view (P : prims) (s : srv) (x : peer) (c : call) (m1 m2 m3 : bytes) : view :=
  {| w_alg := p_alg x; w_pki := p_spkt x; w_pkr := s_spkm s; w_psk := p_psk x;
     w_m1 := m1; w_m2 := m2; w_m3 := m3;
     w_k1 := skem_dec P (s_sskm s) (hello_sctr m1);
     w_k2 := fst (ekem_enc P (c_enc1 (c_coins c)) (hello_epki m1));
     w_k3 := fst (skem_enc P (c_enc2 (c_coins c)) (p_spkt x));
     w_ds := p_ds x |}.

Definition agree (v w : view) : Prop :=
  w_alg v = w_alg w /\ w_pki v = w_pki w /\ w_pkr v = w_pkr w /\ w_psk v = w_psk w /\
  same_hello (w_m1 v) (w_m1 w) /\ same_resp (w_m2 v) (w_m2 w) /\ same_conf (w_m3 v) (w_m3 w) /\
  w_k1 v = w_k1 w /\ w_k2 v = w_k2 w /\ w_k3 v = w_k3 w /\
  ds_labels (w_ds v) = ds_labels (w_ds w).

(** The evaluations of the hash function by which a view leads to the output key. *)
Fixpoint mix_calls (P : prims) (a : halg) (ck : bytes) (l : list bytes) : list hash_call :=
  match l with
  | [] => []
  | x :: l =>
      let d := domain P a ["chaining key extract"; "mix"]%string in
      (a, ck, d) :: (a, khash P a ck d, x) :: mix_calls P a (mix1 P a ck x) l
  end.
Definition items (v : view) : list bytes :=
  [hello_sidi (w_m1 v); hello_epki (w_m1 v); w_pkr v; w_k1 v; hello_sctr (w_m1 v); hello_pidct (w_m1 v);
   w_pki v; w_psk v; hello_auth (w_m1 v);
   resp_sidr (w_m2 v); resp_sidi (w_m2 v); hello_epki (w_m1 v); w_k2 v; resp_ecti (w_m2 v); w_pki v;
   w_k3 v; resp_scti (w_m2 v); resp_biscuit (w_m2 v); resp_auth (w_m2 v);
   conf_sidi (w_m3 v); conf_sidr (w_m3 v); conf_auth (w_m3 v)].
Definition secret_of (P : prims) (v : view) : bytes :=
  mixed P (w_alg v) (chain_start P (w_alg v) (w_pkr v)) (items v).
Definition view_calls (P : prims) (v : view) : list hash_call :=
  mix_calls P (w_alg v) (chain_start P (w_alg v) (w_pkr v)) (items v) ++
  key_calls P (w_alg v) (w_alg v) (secret_of P v) (w_ds v).
(** Two of these evaluations with different inputs have the same result, or one has the
    all-zero result that is also the root of the tree of labels. *)
Definition hash_broken (P : prims) (v w : view) : Prop :=
  collide P (view_calls P v) (view_calls P w) \/ hits_zero P (view_calls P v) \/ hits_zero P (view_calls P w).

(** * Proof *)

Section Inj.
Context (P : prims).

Lemma mix_calls_app a l l' ck :
  mix_calls P a ck (l ++ l') = mix_calls P a ck l ++ mix_calls P a (mixed P a ck l) l'.
Proof. revert ck. induction l as [|x l IH]; intros ck; [reflexivity|]. cbn. now rewrite IH. Qed.

Lemma mixed_inj a a' ck ck' l : forall l', length l = length l' -> l <> [] ->
  mixed P a ck l = mixed P a' ck' l' ->
  (a = a' /\ ck = ck' /\ l = l') \/ collide P (mix_calls P a ck l) (mix_calls P a' ck' l').
Proof.
  induction l as [|x l IH] using rev_ind; intros l' L N E; [congruence|].
  destruct l' as [|x' l' _] using rev_ind; [rewrite app_length in L; cbn in L; lia|].
  rewrite !app_length in L. cbn in L. assert (length l = length l') as L' by lia.
  rewrite !mixed_app in E. rewrite !mix_calls_app. cbn [mixed fold_left mix_calls] in E |- *.
  set (d := domain P a ["chaining key extract"; "mix"]%string).
  set (d' := domain P a' ["chaining key extract"; "mix"]%string).
  set (k := mixed P a ck l) in *. set (k' := mixed P a' ck' l') in *.
  destruct (call_dec (a, khash P a k d, x) (a', khash P a' k' d', x')) as [Ec|Nc].
  2:{ right. eexists _, _. split; [apply in_or_app; right; right; left; reflexivity|].
      split; [apply in_or_app; right; right; left; reflexivity|]. split; [exact Nc|exact E]. }
  injection Ec as Ea Ek Ex.
  destruct (call_dec (a, k, d) (a', k', d')) as [Ec|Nc].
  2:{ right. eexists _, _. split; [apply in_or_app; right; left; reflexivity|].
      split; [apply in_or_app; right; left; reflexivity|]. split; [exact Nc|exact Ek]. }
  injection Ec as _ Ekk _.
  destruct l as [|y l].
  - destruct l'; [|discriminate]. left. cbn in k, k'. subst k k' x'. auto.
  - destruct (IH l' L' ltac:(discriminate) Ekk) as [(_ & Eck & El)|K].
    + left. subst l' x'. auto.
    + right. now apply collide_app.
Qed.

Lemma items_length v : length (items v) = 22.
Proof. reflexivity. Qed.

Lemma views_agree v w : secret_of P v = secret_of P w ->
  (w_alg v = w_alg w /\ items v = items w) \/ hash_broken P v w.
Proof.
  intros E. destruct (mixed_inj _ _ _ _ (items v) (items w) eq_refl ltac:(discriminate) E) as [(A & _ & B)|K].
  - left. auto.
  - right. left. now apply collide_app.
Qed.

Lemma items_agree v w : w_alg v = w_alg w -> items v = items w -> ds_labels (w_ds v) = ds_labels (w_ds w) ->
  agree v w.
Proof.
  intros A E D. unfold items in E.
  assert (forall n, nth n (items v) [] = nth n (items w) []) as G by (intros n; unfold items; now rewrite E).
  unfold agree, same_hello, same_resp, same_conf.
  pose proof (G 0) as G0. pose proof (G 1) as G1. pose proof (G 2) as G2. pose proof (G 3) as G3.
  pose proof (G 4) as G4. pose proof (G 5) as G5. pose proof (G 6) as G6. pose proof (G 7) as G7.
  pose proof (G 8) as G8. pose proof (G 9) as G9. pose proof (G 10) as G10. pose proof (G 12) as G12.
  pose proof (G 13) as G13. pose proof (G 15) as G15. pose proof (G 16) as G16. pose proof (G 17) as G17.
  pose proof (G 18) as G18. pose proof (G 19) as G19. pose proof (G 20) as G20. pose proof (G 21) as G21.
  unfold items in *. cbn [nth] in *. repeat match goal with |- _ /\ _ => split end; assumption.
Qed.

(** The output key of a session whose secret is that of a view. *)
Lemma keys_agree s p x u s' p' x' u' v w k :
  reachable P s -> reachable P s' ->
  nth_error (s_peers s) p = Some x -> p_session x = Some u -> se_ck u = secret_of P v ->
  nth_error (s_peers s') p' = Some x' -> p_session x' = Some u' -> se_ck u' = secret_of P w ->
  p_alg x = w_alg v -> p_ds x = w_ds v -> p_alg x' = w_alg w -> p_ds x' = w_ds w ->
  key_at P s p k -> key_at P s' p' k -> agree v w \/ hash_broken P v w.
Proof.
  intros R R' X U S X' U' S' A D A' D' K K'.
  destruct (C49_session_keys P s p x u R X U) as [Ea _].
  destruct (C49_session_keys P s' p' x' u' R' X' U') as [Ea' _].
  assert (osk_with_domain_separator P p (p_ds x) s = (s, Ok k)) as O.
  { pose proof (osk_of P s p x u X U) as K0.
    set (c := {| c_now := 0; c_coins := Demo.coin x00; c_op := OOsk p |}).
    assert (valid c s) as V.
    { split; [apply Demo.wf_coin|]. cbn. apply nth_error_Some. now rewrite X. }
    pose proof (K c V eq_refl) as E1. rewrite (K0 c V eq_refl) in E1. injection E1 as <-.
    unfold osk_with_domain_separator, bind, get_peer. rewrite X, U. reflexivity. }
  assert (osk_with_domain_separator P p' (p_ds x') s' = (s', Ok k)) as O'.
  { pose proof (osk_of P s' p' x' u' X' U') as K0.
    set (c := {| c_now := 0; c_coins := Demo.coin x00; c_op := OOsk p' |}).
    assert (valid c s') as V.
    { split; [apply Demo.wf_coin|]. cbn. apply nth_error_Some. now rewrite X'. }
    pose proof (K' c V eq_refl) as E1. rewrite (K0 c V eq_refl) in E1. injection E1 as <-.
    unfold osk_with_domain_separator, bind, get_peer. rewrite X', U'. reflexivity. }
  destruct (C45_output_key_binding P s p x u _ s' p' x' u' _ k s s' X U X' U' O O') as [(E1 & E2 & E3)|B].
  - rewrite S, S' in E1. destruct (views_agree v w E1) as [[F1 F2]|B]; [|right; exact B].
    left. apply items_agree; auto. now rewrite <- D, <- D'.
  - right. rewrite Ea, Ea', A, A', S, S', D, D' in B. unfold hash_broken, view_calls.
    destruct B as [(c & c' & B1 & B2 & B3)|[(c & B1 & B2)|(c & B1 & B2)]].
    + left. exists c, c'. split; [apply in_or_app; now right|]. split; [apply in_or_app; now right|exact B3].
    + right. left. exists c. split; [apply in_or_app; now right|exact B2].
    + right. right. exists c. split; [apply in_or_app; now right|exact B2].
Qed.

Lemma initiator_session s p x c m1 m2 m3 s' :
  initiator_run P s p c m1 m2 m3 s' -> nth_error (s_peers s) p = Some x ->
  reachable P s' /\ exists x' u, nth_error (s_peers s') p = Some x' /\ p_session x' = Some u /\
    p_alg x' = p_alg x /\ p_ds x' = p_ds x /\
    se_ck u = secret_of P (initiator_view P s x c m1 m2 m3) /\
    hello_epki m1 = snd (ekem_gen P (c_kp (c_coins c))) /\
    hello_sctr m1 = snd (skem_enc P (c_enc1 (c_coins c)) (p_spkt x)).
Proof.
  intros (tx1 & s1 & h & s2 & c2 & tx2 & Re & V1 & O1 & E1 & Rn & SP & V2 & O2 & Ty & E2) X.
  destruct (C50_initiator P s p x c tx1 s1 m1 h s2 c2 m2 tx2 s' m3 Re X V1 O1 E1 Rn SP V2 O2 Ty E2)
    as (esk & k1 & G1 & G2 & (x' & u & X' & U & S)).
  assert (run P s ((c, Ok (RSent m1)) :: h ++ [(c2, Ok (RHandled {| mr_exchanged := Some p; mr_resp := Some m3 |}))]) s') as Rr.
  { econstructor; eauto. eapply run_app; [exact Rn|]. econstructor; eauto. constructor. }
  assert (reachable P s') as Re'.
  { destruct Re as (s0 & h0 & I0 & R0). eexists s0, _. split; [exact I0|]. eapply run_app; [exact R0|exact Rr]. }
  split; [exact Re'|]. pose proof (System.run_evo P _ _ _ (reachable_inv P _ Re) Rr) as Ev.
  destruct (ev_pe _ _ Ev p x X) as (y & Y & PE). unfold pe in Y. rewrite X' in Y.
  assert (x' = y) as -> by congruence.
  exists y, u. split; [exact X'|]. split; [exact U|]. split; [apply (pv_alg _ _ PE)|]. split; [apply (pv_ds _ _ PE)|].
  rewrite S. unfold secret_of, items, initiator_view. cbn [w_alg w_pki w_pkr w_psk w_m1 w_m2 w_m3 w_k1 w_k2 w_k3].
  rewrite <- G1, <- G2. auto.
Qed.

Lemma responder_session s p x c m1 m2 m3 s' : correct P ->
  responder_run P s p c m1 m2 m3 s' -> nth_error (s_peers s) p = Some x ->
  reachable P s' /\ exists x' u, nth_error (s_peers s') p = Some x' /\ p_session x' = Some u /\
    p_alg x' = p_alg x /\ p_ds x' = p_ds x /\
    se_ck u = secret_of P (responder_view P s x c m1 m2 m3) /\
    resp_ecti m2 = snd (ekem_enc P (c_enc1 (c_coins c)) (hello_epki m1)) /\
    resp_scti m2 = snd (skem_enc P (c_enc2 (c_coins c)) (p_spkt x)).
Proof.
  intros C (s1 & r1 & h & s2 & c2 & r2 & Re & V1 & O1 & E1 & Rp & Ty & Rn & V2 & O2 & Ty3 & E2 & Ex
    & Eb & Ei & Er & NK & Amb) X.
  destruct (C50_responder P s c m1 s1 r1 m2 h s2 c2 m3 s' r2 p C Re V1 O1 E1 Rp Ty Rn V2 O2 Ty3 E2 Ex Eb Ei Er NK)
    as [(a & a' & pt & pt' & N & B1 & B2)|(y & k2 & k3 & Y & G2 & G3 & (x' & u & X' & U & S))].
  { exfalso. apply N. eapply Amb; eauto. }
  assert (y = x) as -> by congruence.
  assert (run P s ((c, r1) :: h ++ [(c2, r2)]) s') as Rr.
  { econstructor; eauto. eapply run_app; [exact Rn|]. econstructor; eauto. constructor. }
  assert (reachable P s') as Re'.
  { destruct Re as (s0 & h0 & I0 & R0). eexists s0, _. split; [exact I0|]. eapply run_app; [exact R0|exact Rr]. }
  split; [exact Re'|]. pose proof (System.run_evo P _ _ _ (reachable_inv P _ Re) Rr) as Ev.
  destruct (ev_pe _ _ Ev p x X) as (y & Y' & PE). unfold pe in Y'. rewrite X' in Y'.
  assert (x' = y) as -> by congruence.
  exists y, u. split; [exact X'|]. split; [exact U|]. split; [apply (pv_alg _ _ PE)|]. split; [apply (pv_ds _ _ PE)|].
  rewrite S. unfold secret_of, items, responder_view. cbn [w_alg w_pki w_pkr w_psk w_m1 w_m2 w_m3 w_k1 w_k2 w_k3].
  rewrite <- G2, <- G3. auto.
Qed.
End Inj.

(** * C75 *)

(** An initiator and a responder that ended up with the same output key talked to each other:
    each is the configured peer of the other, with the same pre-shared key, version and labels, and
    each received what the other sent, unless the hash function is broken by these very
    handshakes. *)
Theorem C75_matching_conversations : forall P A p xA c m1 m2 m3 A' B q xB d n1 n2 n3 B' k,
  correct P ->
  initiator_run P A p c m1 m2 m3 A' -> nth_error (s_peers A) p = Some xA ->
  responder_run P B q d n1 n2 n3 B' -> nth_error (s_peers B) q = Some xB ->
  key_at P A' p k -> key_at P B' q k ->
  (p_spkt xA = s_spkm B /\ p_spkt xB = s_spkm A /\ p_psk xA = p_psk xB /\ p_alg xA = p_alg xB /\
   ds_labels (p_ds xA) = ds_labels (p_ds xB) /\
   same_hello m1 n1 /\ same_resp m2 n2 /\ same_conf m3 n3) \/
  hash_broken P (initiator_view P A xA c m1 m2 m3) (responder_view P B xB d n1 n2 n3).
Proof.
  intros P A p xA c m1 m2 m3 A' B q xB d n1 n2 n3 B' k C RA XA RB XB KA KB.
  destruct (initiator_session P A p xA c m1 m2 m3 A' RA XA) as (ReA & x & u & X & U & Aa & Da & SA & _).
  destruct (responder_session P B q xB d n1 n2 n3 B' C RB XB) as (ReB & y & w & Y & W & Ab & Db & SB & _).
  destruct (keys_agree P A' p x u B' q y w _ _ k ReA ReB X U SA Y W SB Aa Da Ab Db KA KB) as [G|G]; [left|right; exact G].
  destruct G as (G1 & G2 & G3 & G4 & G5 & G6 & G7 & _ & _ & _ & G11).
  cbn in G1, G2, G3, G4, G5, G6, G7, G11. auto 10.
Qed.
Print Assumptions C75_matching_conversations.

(** Two sessions entered as initiator, of one server or of two, have the same output key only if
    they are the same handshake: the same identity, peer and messages. *)
Theorem C75_initiators_differ : forall P A p xA c m1 m2 m3 A' B q xB d n1 n2 n3 B' k,
  initiator_run P A p c m1 m2 m3 A' -> nth_error (s_peers A) p = Some xA ->
  initiator_run P B q d n1 n2 n3 B' -> nth_error (s_peers B) q = Some xB ->
  key_at P A' p k -> key_at P B' q k ->
  (s_spkm A = s_spkm B /\ p_spkt xA = p_spkt xB /\ p_psk xA = p_psk xB /\ p_alg xA = p_alg xB /\
   ds_labels (p_ds xA) = ds_labels (p_ds xB) /\
   same_hello m1 n1 /\ same_resp m2 n2 /\ same_conf m3 n3) \/
  hash_broken P (initiator_view P A xA c m1 m2 m3) (initiator_view P B xB d n1 n2 n3).
Proof.
  intros P A p xA c m1 m2 m3 A' B q xB d n1 n2 n3 B' k RA XA RB XB KA KB.
  destruct (initiator_session P A p xA c m1 m2 m3 A' RA XA) as (ReA & x & u & X & U & Aa & Da & SA & _).
  destruct (initiator_session P B q xB d n1 n2 n3 B' RB XB) as (ReB & y & w & Y & W & Ab & Db & SB & _).
  destruct (keys_agree P A' p x u B' q y w _ _ k ReA ReB X U SA Y W SB Aa Da Ab Db KA KB) as [G|G]; [left|right; exact G].
  destruct G as (G1 & G2 & G3 & G4 & G5 & G6 & G7 & _ & _ & _ & G11).
  cbn in G1, G2, G3, G4, G5, G6, G7, G11. auto 10.
Qed.
Print Assumptions C75_initiators_differ.

(** The same for two sessions entered as responder. *)
Theorem C75_responders_differ : forall P A p xA c m1 m2 m3 A' B q xB d n1 n2 n3 B' k,
  correct P ->
  responder_run P A p c m1 m2 m3 A' -> nth_error (s_peers A) p = Some xA ->
  responder_run P B q d n1 n2 n3 B' -> nth_error (s_peers B) q = Some xB ->
  key_at P A' p k -> key_at P B' q k ->
  (s_spkm A = s_spkm B /\ p_spkt xA = p_spkt xB /\ p_psk xA = p_psk xB /\ p_alg xA = p_alg xB /\
   ds_labels (p_ds xA) = ds_labels (p_ds xB) /\
   same_hello m1 n1 /\ same_resp m2 n2 /\ same_conf m3 n3) \/
  hash_broken P (responder_view P A xA c m1 m2 m3) (responder_view P B xB d n1 n2 n3).
Proof.
  intros P A p xA c m1 m2 m3 A' B q xB d n1 n2 n3 B' k C RA XA RB XB KA KB.
  destruct (responder_session P A p xA c m1 m2 m3 A' C RA XA) as (ReA & x & u & X & U & Aa & Da & SA & _).
  destruct (responder_session P B q xB d n1 n2 n3 B' C RB XB) as (ReB & y & w & Y & W & Ab & Db & SB & _).
  destruct (keys_agree P A' p x u B' q y w _ _ k ReA ReB X U SA Y W SB Aa Da Ab Db KA KB) as [G|G]; [left|right; exact G].
  destruct G as (G1 & G2 & G3 & G4 & G5 & G6 & G7 & _ & _ & _ & G11).
  cbn in G1, G2, G3, G4, G5, G6, G7, G11. auto 10.
Qed.
Print Assumptions C75_responders_differ.

(** The demonstration handshake: both runs, one key. *)
Lemma demo_initiator : initiator_run Demo.P Demo.A1 0 Demo.cA2 Demo.m1 Demo.m2 Demo.m3 Demo.A3.
Proof.
  exists Demo.tx, Demo.A2, [], Demo.A2, Demo.cA3, Demo.tx.
  split. { exact (Demo.reach _ _ _ Demo.initA (Demo.step Demo.A0 Demo.cA1 Demo.rA1
            (conj (Demo.wf_coin _) Logic.I) ltac:(vm_compute; reflexivity) _ _ (run_nil _ _))). }
  split; [Demo.okv|]. split; [reflexivity|]. split; [vm_compute; reflexivity|]. split; [constructor|].
  split. { eapply still_pending_self; [reflexivity|reflexivity|vm_compute; reflexivity]. }
  split; [Demo.okv|]. split; [reflexivity|]. split; [reflexivity|]. vm_compute; reflexivity.
Qed.
Lemma demo_responder : responder_run Demo.P Demo.B1 0 Demo.cB2 Demo.m1 Demo.m2 Demo.m3 Demo.B3.
Proof.
  exists Demo.B2, (snd Demo.rB2), [], Demo.B2, Demo.cB3, (snd Demo.rB3).
  split. { exact (Demo.reach _ _ _ Demo.initB (Demo.step Demo.B0 Demo.cB1 Demo.rB1
            (conj (Demo.wf_coin _) Logic.I) ltac:(vm_compute; reflexivity) _ _ (run_nil _ _))). }
  split; [Demo.okv|]. split; [reflexivity|]. split; [vm_compute; reflexivity|].
  split; [eexists; reflexivity|]. split; [reflexivity|]. split; [constructor|].
  split; [Demo.okv|]. split; [reflexivity|]. split; [reflexivity|]. split; [vm_compute; reflexivity|].
  split; [eexists; reflexivity|].
  split; [vm_compute; reflexivity|]. split; [vm_compute; reflexivity|]. split; [vm_compute; reflexivity|].
  split; [reflexivity|].
  assert (forall pt, ~ biscuit_opens Demo.P Blake (s_spkm Demo.B1)
    (named_key Demo.B2 (resp_biscuit Demo.m2)) (resp_sidi Demo.m2) (resp_sidr Demo.m2) (resp_biscuit Demo.m2) pt) as N.
  { intros pt H. vm_compute in H. discriminate. }
  intros [|] [|] pt pt' H H'; try reflexivity; exfalso; eapply N; eassumption.
Qed.
Example C75_case :
  initiator_run Demo.P Demo.A1 0 Demo.cA2 Demo.m1 Demo.m2 Demo.m3 Demo.A3 /\
  responder_run Demo.P Demo.B1 0 Demo.cB2 Demo.m1 Demo.m2 Demo.m3 Demo.B3 /\
  exists k, key_at Demo.P Demo.A3 0 k /\ key_at Demo.P Demo.B3 0 k.
Proof.
  split; [exact demo_initiator|]. split; [exact demo_responder|].
  eexists. split; [eapply osk_of; reflexivity|].
  intros c V Eo. erewrite (osk_of Demo.P Demo.B3 0); [|reflexivity|reflexivity|exact V|exact Eo].
  vm_compute. reflexivity.
Qed.

(** * C76: handshakes that cross *)

(** Two servers that know each other and both entered their sessions as responders do not have
    the same key, whatever else happened (protocol.rs:3972-3985 drops the own handshake and
    installs the session of the other's). *)
Theorem C76_both_responders_refuted : forall P A p xA c m1 m2 m3 A' B q xB d n1 n2 n3 B' k k',
  correct P ->
  responder_run P A p c m1 m2 m3 A' -> nth_error (s_peers A) p = Some xA ->
  responder_run P B q d n1 n2 n3 B' -> nth_error (s_peers B) q = Some xB ->
  s_spkm A <> s_spkm B ->
  key_at P A' p k -> key_at P B' q k' ->
  k <> k' \/ hash_broken P (responder_view P A xA c m1 m2 m3) (responder_view P B xB d n1 n2 n3).
Proof.
  intros P A p xA c m1 m2 m3 A' B q xB d n1 n2 n3 B' k k' C RA XA RB XB N KA KB.
  destruct (bytes_dec k k') as [<-|Nk]; [|now left].
  destruct (C75_responders_differ P A p xA c m1 m2 m3 A' B q xB d n1 n2 n3 B' k C RA XA RB XB KA KB)
    as [[E _]|G]; [contradiction|right; exact G].
Qed.
Print Assumptions C76_both_responders_refuted.

(** The same if both entered them as initiators, which is the case while the InitConf messages
    are under way. *)
Theorem C76_both_initiators_refuted : forall P A p xA c m1 m2 m3 A' B q xB d n1 n2 n3 B' k k',
  initiator_run P A p c m1 m2 m3 A' -> nth_error (s_peers A) p = Some xA ->
  initiator_run P B q d n1 n2 n3 B' -> nth_error (s_peers B) q = Some xB ->
  s_spkm A <> s_spkm B ->
  key_at P A' p k -> key_at P B' q k' ->
  k <> k' \/ hash_broken P (initiator_view P A xA c m1 m2 m3) (initiator_view P B xB d n1 n2 n3).
Proof.
  intros P A p xA c m1 m2 m3 A' B q xB d n1 n2 n3 B' k k' RA XA RB XB N KA KB.
  destruct (bytes_dec k k') as [<-|Nk]; [|now left].
  destruct (C75_initiators_differ P A p xA c m1 m2 m3 A' B q xB d n1 n2 n3 B' k RA XA RB XB KA KB)
    as [[E _]|G]; [contradiction|right; exact G].
Qed.
Print Assumptions C76_both_initiators_refuted.

(** A run in which this happens: both initiate, and every message is delivered, once and in the
    order in which it was sent. *)
Module Cross.
Import Demo.
Definition cA2 := mk (secs 1) xaa (OInitiate 0 tx).
Definition rA2 := Eval vm_compute in exec P cA2 A1.
Definition A2 := Eval vm_compute in fst rA2.
Definition m1 := Eval vm_compute in sent (snd rA2).
Definition cB2 := mk (secs 1) xab (OInitiate 0 tx).
Definition rB2 := Eval vm_compute in exec P cB2 B1.
Definition B2 := Eval vm_compute in fst rB2.
Definition n1 := Eval vm_compute in sent (snd rB2).
Definition cA3 := mk (secs 2) xba (OMsg n1 tx).
Definition rA3 := Eval vm_compute in exec P cA3 A2.
Definition A3 := Eval vm_compute in fst rA3.
Definition n2 := Eval vm_compute in sent (snd rA3).
Definition cB3 := mk (secs 2) xbb (OMsg m1 tx).
Definition rB3 := Eval vm_compute in exec P cB3 B2.
Definition B3 := Eval vm_compute in fst rB3.
Definition m2 := Eval vm_compute in sent (snd rB3).
Definition cA4 := mk (secs 3) xca (OMsg m2 tx).
Definition rA4 := Eval vm_compute in exec P cA4 A3.
Definition A4 := Eval vm_compute in fst rA4.
Definition m3 := Eval vm_compute in sent (snd rA4).
Definition cB4 := mk (secs 3) xcb (OMsg n2 tx).
Definition rB4 := Eval vm_compute in exec P cB4 B3.
Definition B4 := Eval vm_compute in fst rB4.
Definition n3 := Eval vm_compute in sent (snd rB4).
Definition cA5 := mk (secs 4) xda (OMsg n3 tx).
Definition rA5 := Eval vm_compute in exec P cA5 A4.
Definition A5 := Eval vm_compute in fst rA5.
Definition n4 := Eval vm_compute in sent (snd rA5).
Definition cB5 := mk (secs 4) xdb (OMsg m3 tx).
Definition rB5 := Eval vm_compute in exec P cB5 B4.
Definition B5 := Eval vm_compute in fst rB5.
Definition m4 := Eval vm_compute in sent (snd rB5).
Definition cA6 := mk (secs 5) xea (OMsg m4 tx).
Definition rA6 := Eval vm_compute in exec P cA6 A5.
Definition A6 := Eval vm_compute in fst rA6.
Definition cB6 := mk (secs 5) xeb (OMsg n4 tx).
Definition rB6 := Eval vm_compute in exec P cB6 B5.
Definition B6 := Eval vm_compute in fst rB6.
Definition hA := [(cA1, snd rA1); (cA2, snd rA2); (cA3, snd rA3); (cA4, snd rA4); (cA5, snd rA5); (cA6, snd rA6)].
Definition hB := [(cB1, snd rB1); (cB2, snd rB2); (cB3, snd rB3); (cB4, snd rB4); (cB5, snd rB5); (cB6, snd rB6)].
End Cross.

Lemma cross_runA : run Demo.P Demo.A0 Cross.hA Cross.A6.
Proof.
  unfold Cross.hA.
  apply Demo.step; [split; [apply Demo.wf_coin|exact Logic.I]|vm_compute; reflexivity|].
  change (fst Demo.rA1) with Demo.A1. apply Demo.step; [Demo.okv|vm_compute; reflexivity|].
  change (fst Cross.rA2) with Cross.A2. apply Demo.step; [Demo.okv|vm_compute; reflexivity|].
  change (fst Cross.rA3) with Cross.A3. apply Demo.step; [Demo.okv|vm_compute; reflexivity|].
  change (fst Cross.rA4) with Cross.A4. apply Demo.step; [Demo.okv|vm_compute; reflexivity|].
  change (fst Cross.rA5) with Cross.A5. apply Demo.step; [Demo.okv|vm_compute; reflexivity|].
  change (fst Cross.rA6) with Cross.A6. constructor.
Qed.
Lemma cross_runB : run Demo.P Demo.B0 Cross.hB Cross.B6.
Proof.
  unfold Cross.hB.
  apply Demo.step; [split; [apply Demo.wf_coin|exact Logic.I]|vm_compute; reflexivity|].
  change (fst Demo.rB1) with Demo.B1. apply Demo.step; [Demo.okv|vm_compute; reflexivity|].
  change (fst Cross.rB2) with Cross.B2. apply Demo.step; [Demo.okv|vm_compute; reflexivity|].
  change (fst Cross.rB3) with Cross.B3. apply Demo.step; [Demo.okv|vm_compute; reflexivity|].
  change (fst Cross.rB4) with Cross.B4. apply Demo.step; [Demo.okv|vm_compute; reflexivity|].
  change (fst Cross.rB5) with Cross.B5. apply Demo.step; [Demo.okv|vm_compute; reflexivity|].
  change (fst Cross.rB6) with Cross.B6. constructor.
Qed.

(** What a server was given and what it sent, in order. *)
Fixpoint given (h : list (call * res err outcome)) : list bytes :=
  match h with
  | [] => []
  | (c, _) :: h => match received c with Some m => m :: given h | None => given h end
  end.
Fixpoint sent_by (h : list (call * res err outcome)) : list bytes :=
  match h with
  | [] => []
  | (_, Ok (RSent m)) :: h | (_, Ok (RHandled {| mr_resp := Some m |})) :: h => m :: sent_by h
  | _ :: h => sent_by h
  end.

(** Every message arrives, once and in order, and the servers end up with different keys; neither
    has a handshake that it would retransmit, and both will ask for the next one at the same
    time, when the sessions are 120 seconds old, so that it happens again. *)
Theorem C76_crossing_refuted :
  exists sA hA A sB hB B,
    initial sA /\ run Demo.P sA hA A /\ initial sB /\ run Demo.P sB hB B /\ configured A 0 B 0 /\
    given hA = sent_by hB /\ given hB = sent_by hA /\
    (exists k k', key_at Demo.P A 0 k /\ key_at Demo.P B 0 k' /\ k <> k') /\
    (forall t c tx, c_op c = ORetransmit 0 tx -> t = A \/ t = B -> exec Demo.P c t = (t, Err ENoHandshake)) /\
    (exists A' B', exec Demo.P (Demo.mk (secs 124) x01 OPoll) A = (A', Ok (RPolled (SendInitiation 0))) /\
                   exec Demo.P (Demo.mk (secs 124) x02 OPoll) B = (B', Ok (RPolled (SendInitiation 0)))).
Proof.
  exists Demo.A0, Cross.hA, Cross.A6, Demo.B0, Cross.hB, Cross.B6.
  split; [exact Demo.initA|]. split; [exact cross_runA|]. split; [exact Demo.initB|]. split; [exact cross_runB|].
  split. { eexists _, _. split; [reflexivity|]. split; [reflexivity|]. repeat split; vm_compute; reflexivity. }
  split; [vm_compute; reflexivity|]. split; [vm_compute; reflexivity|].
  split.
  { eexists _, _. split; [eapply osk_of; reflexivity|]. split; [eapply osk_of; reflexivity|]. vm_compute. discriminate. }
  split.
  { intros t c tx Eo [Et|Et]; subst t; unfold exec; rewrite Eo; vm_compute; reflexivity. }
  eexists _, _. split; vm_compute; reflexivity.
Qed.
Print Assumptions C76_crossing_refuted.

(** * Agreement *)

Lemma key_of_session P s p x u : reachable P s -> nth_error (s_peers s) p = Some x -> p_session x = Some u ->
  key_at P s p (khash P (p_alg x) (se_ck u) (ds_compress P (p_alg x) (p_ds x))).
Proof.
  intros R X U. destruct (C49_session_keys P s p x u R X U) as [Ea _].
  pose proof (osk_of P s p x u X U) as K. rewrite Ea in K. exact K.
Qed.

(** Conversely: an initiator and a responder that are configured for each other and have the same
    messages have the same key, as long as both keep the session. *)
Theorem C76_agreement_partial : forall P A p c m1 m2 m3 A' hA A'' B q d n1 n2 n3 B' hB B'',
  correct P -> genuine P A -> genuine P B -> configured A p B q ->
  initiator_run P A p c m1 m2 m3 A' -> responder_run P B q d n1 n2 n3 B' ->
  same_hello m1 n1 -> same_resp m2 n2 -> same_conf m3 n3 ->
  run P A' hA A'' -> same_session A' A'' p -> run P B' hB B'' -> same_session B' B'' q ->
  exists k, key_at P A'' p k /\ key_at P B'' q k.
Proof.
  intros P A p c m1 m2 m3 A' hA A'' B q d n1 n2 n3 B' hB B'' C GA GB
    (xA & xB & XA & XB & K1 & K2 & K3 & K4 & K5) RA RB H1 H2 H3 RnA SA RnB SB.
  destruct (initiator_session P A p xA c m1 m2 m3 A' RA XA) as (ReA & x & u & X & U & Aa & Da & CA & F1 & F2).
  destruct (responder_session P B q xB d n1 n2 n3 B' C RB XB) as (ReB & y & w & Y & W & Ab & Db & CB & F3 & F4).
  assert (se_ck u = se_ck w) as E.
  { rewrite CA, CB. unfold secret_of.
    assert (items (initiator_view P A xA c m1 m2 m3) = items (responder_view P B xB d n1 n2 n3)) as EI.
    { destruct H1 as (h1 & h2 & h3 & h4 & h5). destruct H2 as (i1 & i2 & i3 & i4 & i5 & i6).
      destruct H3 as (j1 & j2 & j3).
      unfold items, initiator_view, responder_view. cbn [w_alg w_pki w_pkr w_psk w_m1 w_m2 w_m3 w_k1 w_k2 w_k3].
      assert (fst (skem_enc P (c_enc1 (c_coins c)) (p_spkt xA)) = skem_dec P (s_sskm B) (hello_sctr n1)) as L1.
      { rewrite <- h3, F2, K1, GB. symmetry. apply (skem_correct P C). }
      assert (ekem_dec P (fst (ekem_gen P (c_kp (c_coins c)))) (resp_ecti m2) =
              fst (ekem_enc P (c_enc1 (c_coins d)) (hello_epki n1))) as L2.
      { rewrite i3, F3, <- h2, F1. apply (ekem_correct P C). }
      assert (skem_dec P (s_sskm A) (resp_scti m2) = fst (skem_enc P (c_enc2 (c_coins d)) (p_spkt xB))) as L3.
      { rewrite i4, F4, K2, GA. apply (skem_correct P C). }
      rewrite L1, L2, L3, h1, h2, h3, h4, h5, i1, i2, i3, i4, i5, i6, j1, j2, j3, K1, K3, <- K2. reflexivity. }
    rewrite EI. unfold initiator_view, responder_view. cbn [w_alg w_pkr]. now rewrite K4, K1. }
  assert (reachable P A'') as ReA2.
  { destruct ReA as (s0 & h0 & I0 & R0). eexists s0, _. split; [exact I0|]. eapply run_app; [exact R0|exact RnA]. }
  assert (reachable P B'') as ReB2.
  { destruct ReB as (s0 & h0 & I0 & R0). eexists s0, _. split; [exact I0|]. eapply run_app; [exact R0|exact RnB]. }
  destruct (ev_pe _ _ (System.run_evo P _ _ _ (reachable_inv P _ ReA) RnA) p x X) as (x' & X' & PA).
  destruct (ev_pe _ _ (System.run_evo P _ _ _ (reachable_inv P _ ReB) RnB) q y Y) as (y' & Y' & PB).
  unfold pe in X', Y'. unfold same_session in SA, SB. rewrite X, X' in SA. rewrite Y, Y' in SB. cbn in SA, SB.
  assert (p_session x' = Some u) as U' by congruence. assert (p_session y' = Some w) as W' by congruence.
  eexists. split; [exact (key_of_session P A'' p x' u ReA2 X' U')|].
  pose proof (key_of_session P B'' q y' w ReB2 Y' W') as K.
  rewrite (pv_alg _ _ PB), (pv_ds _ _ PB), Ab, Db, <- E, <- K4, <- K5 in K.
  rewrite (pv_alg _ _ PA), (pv_ds _ _ PA), Aa, Da. exact K.
Qed.
Print Assumptions C76_agreement_partial.

(** The crossing handshakes meet the hypotheses of the general theorems. *)
Lemma cross_reachA2 : reachable Demo.P Cross.A2.
Proof.
  eapply Demo.reach; [exact Demo.initA|].
  apply (Demo.step Demo.A0 Demo.cA1 Demo.rA1); [split; [apply Demo.wf_coin|exact Logic.I]|vm_compute; reflexivity|].
  change (fst Demo.rA1) with Demo.A1.
  apply (Demo.step Demo.A1 Cross.cA2 Cross.rA2); [Demo.okv|vm_compute; reflexivity|].
  constructor.
Qed.
Lemma cross_reachB2 : reachable Demo.P Cross.B2.
Proof.
  eapply Demo.reach; [exact Demo.initB|].
  apply (Demo.step Demo.B0 Demo.cB1 Demo.rB1); [split; [apply Demo.wf_coin|exact Logic.I]|vm_compute; reflexivity|].
  change (fst Demo.rB1) with Demo.B1.
  apply (Demo.step Demo.B1 Cross.cB2 Cross.rB2); [Demo.okv|vm_compute; reflexivity|].
  constructor.
Qed.
Lemma cross_responderA : responder_run Demo.P Cross.A2 0 Cross.cA3 Cross.n1 Cross.n2 Cross.n3 Cross.A5.
Proof.
  exists Cross.A3, (snd Cross.rA3), [(Cross.cA4, snd Cross.rA4)], Cross.A4, Cross.cA5, (snd Cross.rA5).
  split; [exact cross_reachA2|].
  split; [Demo.okv|]. split; [reflexivity|]. split; [vm_compute; reflexivity|].
  split; [eexists; reflexivity|]. split; [reflexivity|].
  split. { apply Demo.step; [Demo.okv|vm_compute; reflexivity|]. constructor. }
  split; [Demo.okv|]. split; [reflexivity|]. split; [reflexivity|]. split; [vm_compute; reflexivity|].
  split; [eexists; reflexivity|].
  split; [vm_compute; reflexivity|]. split; [vm_compute; reflexivity|]. split; [vm_compute; reflexivity|].
  split; [reflexivity|].
  assert (forall pt, ~ biscuit_opens Demo.P Blake (s_spkm Cross.A2)
    (named_key Cross.A3 (resp_biscuit Cross.n2)) (resp_sidi Cross.n2) (resp_sidr Cross.n2) (resp_biscuit Cross.n2) pt) as N.
  { intros pt H. vm_compute in H. discriminate. }
  intros [|] [|] pt pt' H H'; try reflexivity; exfalso; eapply N; eassumption.
Qed.
Lemma cross_responderB : responder_run Demo.P Cross.B2 0 Cross.cB3 Cross.m1 Cross.m2 Cross.m3 Cross.B5.
Proof.
  exists Cross.B3, (snd Cross.rB3), [(Cross.cB4, snd Cross.rB4)], Cross.B4, Cross.cB5, (snd Cross.rB5).
  split; [exact cross_reachB2|].
  split; [Demo.okv|]. split; [reflexivity|]. split; [vm_compute; reflexivity|].
  split; [eexists; reflexivity|]. split; [reflexivity|].
  split. { apply Demo.step; [Demo.okv|vm_compute; reflexivity|]. constructor. }
  split; [Demo.okv|]. split; [reflexivity|]. split; [reflexivity|]. split; [vm_compute; reflexivity|].
  split; [eexists; reflexivity|].
  split; [vm_compute; reflexivity|]. split; [vm_compute; reflexivity|]. split; [vm_compute; reflexivity|].
  split; [reflexivity|].
  assert (forall pt, ~ biscuit_opens Demo.P Blake (s_spkm Cross.B2)
    (named_key Cross.B3 (resp_biscuit Cross.m2)) (resp_sidi Cross.m2) (resp_sidr Cross.m2) (resp_biscuit Cross.m2) pt) as N.
  { intros pt H. vm_compute in H. discriminate. }
  intros [|] [|] pt pt' H H'; try reflexivity; exfalso; eapply N; eassumption.
Qed.
Lemma cross_initiatorA : initiator_run Demo.P Demo.A1 0 Cross.cA2 Cross.m1 Cross.m2 Cross.m3 Cross.A4.
Proof.
  exists Demo.tx, Cross.A2, [(Cross.cA3, snd Cross.rA3)], Cross.A3, Cross.cA4, Demo.tx.
  split. { exact (Demo.reach _ _ _ Demo.initA (Demo.step Demo.A0 Demo.cA1 Demo.rA1
            (conj (Demo.wf_coin _) Logic.I) ltac:(vm_compute; reflexivity) _ _ (run_nil _ _))). }
  split; [Demo.okv|]. split; [reflexivity|]. split; [vm_compute; reflexivity|].
  split. { apply Demo.step; [Demo.okv|vm_compute; reflexivity|]. constructor. }
  split. { eexists _, _, _, _. split; [reflexivity|]. split; [reflexivity|]. split; [reflexivity|]. split; [reflexivity|].
           repeat split; vm_compute; reflexivity. }
  split; [Demo.okv|]. split; [reflexivity|]. split; [reflexivity|]. vm_compute; reflexivity.
Qed.
Example C76_case :
  initiator_run Demo.P Demo.A1 0 Cross.cA2 Cross.m1 Cross.m2 Cross.m3 Cross.A4 /\
  responder_run Demo.P Cross.A2 0 Cross.cA3 Cross.n1 Cross.n2 Cross.n3 Cross.A5 /\
  responder_run Demo.P Cross.B2 0 Cross.cB3 Cross.m1 Cross.m2 Cross.m3 Cross.B5 /\
  s_spkm Cross.A2 <> s_spkm Cross.B2 /\
  same_hello Cross.m1 Cross.m1 /\ same_session Cross.A4 Cross.A4 0.
Proof.
  split; [exact cross_initiatorA|]. split; [exact cross_responderA|]. split; [exact cross_responderB|].
  split; [vm_compute; discriminate|]. repeat split.
Qed.
