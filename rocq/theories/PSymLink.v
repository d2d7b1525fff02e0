(** C94: the symbolic handshake of Sym.v computes what the code computes.  Terms are evaluated with the primitives; whenever
    a symbolic party sends or accepts something, the functions of the protocol (Protocol.v) give the same bytes. *)
From Verif Require Import Base ConstTime Prims HashDomains Wire Server Protocol Wp Inv Rules Sym SymSec.

Section Link.
Context (P : prims) (OK : correct P).
(** The bytes that were drawn or configured. *)
Context (v : name -> bytes).

(** The bytes a term stands for. *)
Fixpoint ev (t : term) : bytes :=
  match t with
  | Lit b => b
  | Nm n => v n
  | Pair a b => ev a ++ ev b
  | H g k d => khash P g (ev k) (ev d)
  | Pk e s => if e then snd (ekem_gen P (ev s)) else skem_pk P (ev s)
  | Ct e pk r => if e then snd (ekem_enc P (ev r) (ev pk)) else snd (skem_enc P (ev r) (ev pk))
  | Shk e pk r => if e then fst (ekem_enc P (ev r) (ev pk)) else fst (skem_enc P (ev r) (ev pk))
  | Bad e s ct => if e then ekem_dec P (fst (ekem_gen P (ev s))) (ev ct) else skem_dec P (ev s) (ev ct)
  | Aead x k n ad pt =>
      if x then xenc P (ev k) (ev n) (ev ad) (ev pt) else aead_enc P (ev k) (ev n) (ev ad) (ev pt)
  end.

Definition ev_ih (m : s_ih) : init_hello :=
  {| ih_sidi := ev (y_sidi m); ih_epki := ev (y_epki m); ih_sctr := ev (y_sctr m);
     ih_pidi_ct := ev (y_pidct m); ih_auth := ev (y_auth m) |}.
Definition ev_rh (m : s_rh) : resp_hello :=
  {| rh_sidr := ev (z_sidr m); rh_sidi := ev (z_sidi m); rh_ecti := ev (z_ecti m);
     rh_scti := ev (z_scti m); rh_auth := ev (z_auth m); rh_biscuit := ev (z_biscuit m) |}.
Definition ev_ic (m : s_ic) : init_conf :=
  {| ic_sidi := ev (w_sidi m); ic_sidr := ev (w_sidr m); ic_biscuit := ev (w_biscuit m);
     ic_auth := ev (w_auth m) |}.

(** A server and its record of a peer, as agent [A] and entry [p]. *)
Definition is_agent (s : srv) (A : nat) : Prop := s_spkm s = ev (pkey A) /\ s_sskm s = ev (skey A).
Definition is_entry (x : peer) (p : entry) : Prop :=
  p_spkt x = ev (e_pk p) /\ p_psk x = ev (e_psk p) /\ p_alg x = e_alg p.

Lemma ev_kdec_static s ct : ev (kdec false s ct) = skem_dec P (ev s) (ev ct).
Proof.
  unfold kdec. destruct ct as [| | | | |e' pk r| | |]; try reflexivity.
  destruct pk as [| | | |e2 s'| | | |]; try reflexivity.
  destruct (_ && _ && _) eqn:E; [|reflexivity].
  apply andb_prop in E. destruct E as [E E3]. apply andb_prop in E. destruct E as [E1 E2].
  apply Bool.eqb_prop in E1, E2. apply term_eqb_true in E3. subst. cbn [ev]. symmetry. apply skem_correct. exact OK.
Qed.
Lemma ev_kdec_ephemeral s ct : ev (kdec true s ct) = ekem_dec P (fst (ekem_gen P (ev s))) (ev ct).
Proof.
  unfold kdec. destruct ct as [| | | | |e' pk r| | |]; try reflexivity.
  destruct pk as [| | | |e2 s'| | | |]; try reflexivity.
  destruct (_ && _ && _) eqn:E; [|reflexivity].
  apply andb_prop in E. destruct E as [E E3]. apply andb_prop in E. destruct E as [E1 E2].
  apply Bool.eqb_prop in E1, E2. apply term_eqb_true in E3. subst. cbn [ev]. symmetry. apply ekem_correct. exact OK.
Qed.
Lemma ev_ckmix g ck x : ev (s_ckmix g ck x) = ck_mix P g (ev ck) (ev x).
Proof. reflexivity. Qed.
Lemma ev_kemmix g ck pk k c : ev (s_kemmix g ck pk k c) = kem_mix P g (ev ck) (ev pk) (ev k) (ev c).
Proof. reflexivity. Qed.
Lemma ev_start g pk : ev (s_start g pk) = ck_init P g (ev pk).
Proof. reflexivity. Qed.
Lemma ev_pid g pk : ev (s_pid g pk) = peer_id P g (ev pk).
Proof. reflexivity. Qed.
Lemma ev_tag g ck pt : ev (s_tag (s_key g ck) pt) = fst (encrypt_and_mix P g (ev ck) (ev pt)).
Proof. reflexivity. Qed.
Lemma ev_seal g ck pt : encrypt_and_mix P g (ev ck) (ev pt) = (ev (fst (s_seal g ck pt)), ev (snd (s_seal g ck pt))).
Proof. reflexivity. Qed.
Lemma ev_open g ck ct pt ck' : s_open g ck ct = Some (pt, ck') ->
  decrypt_and_mix P g (ev ck) (ev ct) = Some (ev pt, ev ck').
Proof.
  intros E. apply open_spec in E. destruct E as [-> ->]. unfold decrypt_and_mix.
  change (ev (s_tag (s_key g ck) pt)) with (aead_enc P (ck_key P g (ev ck)) (zeros 12) [] (ev pt)).
  rewrite aead_correct by exact OK. reflexivity.
Qed.

(** InitHello as sent. *)
Theorem C94_init s x c run A p : is_agent s A -> is_entry x p ->
  c_sid c = v (NSid run) -> c_kp c = v (NEsk run) -> c_enc1 c = v (NCoin run false) ->
  ih_compute P s x c = (ev_ih (fst (s_init run A p)), ev (snd (s_init run A p))).
Proof.
  intros [A1 _] (X1 & X2 & X3) C1 C2 C3. unfold ih_compute. rewrite A1, X1, X2, X3, C1, C2, C3.
  destruct (skem_enc P (v (NCoin run false)) (ev (e_pk p))) as [k t] eqn:E.
  assert (K : k = ev (Shk false (e_pk p) (Nm (NCoin run false)))) by (cbn [ev]; now rewrite E).
  assert (T : t = ev (Ct false (e_pk p) (Nm (NCoin run false)))) by (cbn [ev]; now rewrite E).
  rewrite K, T. reflexivity.
Qed.

(** InitHello as answered. *)
Theorem C94_resp now c s i x peers run B k bno g m q rh ck :
  inv P s -> is_agent s B ->
  s_resp peers run B k bno g m = Some (q, rh, ck) ->
  find_peer s (ev (s_pid (e_alg q) (e_pk q))) = Some i -> pe s i = Some x -> is_entry x q ->
  c_sid c = v (NSid run) -> c_enc1 c = v (NCoin run false) -> c_enc2 c = v (NCoin run true) ->
  s_bctr s = bno -> cs_value (get_bk (biscuit_slot now c s) (after_biscuit now c s)) = v (NBk B k) ->
  tag_nonce (biscuit_slot now c s) (c_bnonce c) = v (NNonce run) ->
  handle_init_hello P now c (ev_ih m) g s = (after_biscuit now c s, Ok (i, ev_rh rh)).
Proof.
  intros I [A1 A2] S F X (X1 & X2 & X3) C1 C2 C3 BN BK NN.
  rewrite handle_init_hello_eq by exact I. unfold ih_accept, handle_ih_dec.
  unfold s_resp in S. destruct (s_open g _ (y_pidct m)) as [[pid c6]|] eqn:O1; [|discriminate].
  destruct (s_find peers pid) as [q'|] eqn:Fi; [|discriminate].
  destruct (s_open g _ (y_auth m)) as [[pt c9]|] eqn:O2; [|discriminate].
  destruct (halg_eqb (e_alg q') g) eqn:G; [|discriminate]. apply halg_eqb_eq in G.
  unfold s_seal in S. injection S as <- <- <-.
  apply find_some in Fi. destruct Fi as [_ Fi]. apply term_eqb_true in Fi. subst pid.
  cbn [ev_ih ih_sidi ih_epki ih_sctr ih_pidi_ct ih_auth]. rewrite A1, A2.
  apply ev_open in O1. rewrite ev_kemmix, !ev_ckmix, ev_start, ev_kdec_static in O1. rewrite O1.
  rewrite F, X, X1, X2. apply ev_open in O2. rewrite !ev_ckmix in O2. rewrite O2.
  f_equal. f_equal. f_equal. unfold rh_of, rh_core, rh_ck, biscuit_ct.
  cbn [hc_sidi hc_sidr hc_ck ev_ih ih_sidi ih_epki]. rewrite BK, NN, BN, A1, X1, X3, C1, C2, C3.
  unfold pidt. rewrite X1, X3. unfold ev_rh. cbn [z_sidr z_sidi z_ecti z_scti z_auth z_biscuit].
  unfold ser_bi. cbn [bi_pidi bi_no bi_ck]. reflexivity.
Qed.

(** RespHello as accepted. *)
Theorem C94_conf s h run A p m ic ck : is_agent s A ->
  hc_alg (hs_cor h) = e_alg p -> hc_ck (hs_cor h) = ev (snd (s_init run A p)) ->
  hs_epki h = snd (ekem_gen P (v (NEsk run))) -> hs_eski h = fst (ekem_gen P (v (NEsk run))) ->
  s_conf run A p m = Some (ic, ck) ->
  exists core, handle_rh_compute P s h (ev_rh m) = Some (ev_ic ic, core) /\ hc_ck core = ev ck /\ hc_alg core = e_alg p.
Proof.
  intros [A1 A2] H1 H2 H3 H4 S. unfold s_conf in S.
  destruct (term_eqb _ _) eqn:T; [|discriminate].
  destruct (s_open _ _ (z_auth m)) as [[pt c]|] eqn:O; [|discriminate]. unfold s_seal in S. injection S as <- <-.
  unfold handle_rh_compute. rewrite H1, H2, H3, H4, A1, A2.
  cbn [ev_rh rh_sidr rh_sidi rh_ecti rh_scti rh_biscuit rh_auth].
  apply ev_open in O. rewrite ev_ckmix, !ev_kemmix, !ev_ckmix, ev_kdec_static, ev_kdec_ephemeral in O.
  change (ev (Pk true (Nm (NEsk run)))) with (snd (ekem_gen P (v (NEsk run)))) in O.
  change (ev (Nm (NEsk run))) with (v (NEsk run)) in O. rewrite O.
  eexists. split; [reflexivity|]. split; reflexivity.
Qed.

(** InitConf as accepted, for a biscuit as the server makes them. *)
Theorem C94_done s i x peers run B k bno g m q q0 c0 ck :
  is_agent s B -> s_done peers B k g m = Some (q, ck) ->
  w_biscuit m = s_biscuit run B k bno q0 (w_sidi m) (w_sidr m) c0 ->
  length bno = 12 -> length (ev c0) = 32 -> length (v (NNonce run)) = 24 ->
  find_peer s (ev (s_pid (e_alg q) (e_pk q))) = Some i -> pe s i = Some x -> is_entry x q ->
  cs_value (get_bk (nonce_slot (v (NNonce run))) s) = v (NBk B k) ->
  exists core,
    load_biscuit P (ev (w_biscuit m)) (ev (w_sidi m)) (ev (w_sidr m)) g s = (s, Ok (i, bno, core)) /\
    handle_ic_ck P core (ev_ic m) = Some (ev ck) /\ hc_alg core = e_alg q.
Proof.
  intros [A1 A2] D W L1 L2 L3 F X (X1 & X2 & X3) BK.
  unfold s_done, s_unbiscuit in D.
  assert (WD := W). unfold s_biscuit in WD. rewrite WD in D.
  destruct (sdec _ _ _ _ _) as [pt|] eqn:O in D; [|discriminate].
  unfold sdec in O. destruct (_ && _ && _ && _) eqn:Eb in O; [|discriminate].
  apply andb_prop in Eb. destruct Eb as [_ E4]. apply term_eqb_true in E4. injection O as <-.
  destruct (s_find peers _) as [q'|] eqn:Fi; [|discriminate]. rewrite <- WD in D.
  unfold s_seal in D. destruct (s_open _ _ (w_auth m)) as [[pt c]|] eqn:O2; [|discriminate].
  injection D as <- <-. apply find_some in Fi. destruct Fi as [_ Fi]. apply term_eqb_true in Fi.
  unfold load_biscuit, bind at 1, get at 1. rewrite A1.
  assert (Sl : nonce_slot (ev (w_biscuit m)) = nonce_slot (v (NNonce run))).
  { rewrite WD. cbn [ev]. unfold xenc. destruct (v (NNonce run)); [discriminate L3|reflexivity]. }
  rewrite Sl, BK.
  assert (Ad : biscuit_ad P g (ev (pkey B)) (ev (w_sidi m)) (ev (w_sidr m)) =
               ev (s_biscuit_adata (e_alg q0) (pkey B) (w_sidi m) (w_sidr m))) by (rewrite <- E4; reflexivity).
  rewrite Ad.
  assert (Dx : xdec P (v (NBk B k)) (ev (s_biscuit_adata (e_alg q0) (pkey B) (w_sidi m) (w_sidr m))) (ev (w_biscuit m)) =
    Some (ser_bi {| bi_pidi := ev (s_pid (e_alg q0) (e_pk q0)); bi_no := bno; bi_ck := ev c0 |})).
  { rewrite WD. cbn [ev]. apply xdec_xenc; assumption. }
  rewrite Dx. unfold need at 1, bind at 1, ret at 1.
  rewrite parse_ser_bi.
  2:{ split; [|split]; [apply khash_len|exact L1|exact L2]. }
  cbn [bi_pidi bi_no bi_ck]. rewrite Fi, F. unfold need at 1, bind at 1, ret at 1.
  unfold bind at 1, get_peer. unfold pe in X. rewrite X. unfold ret. rewrite X3.
  eexists. split; [reflexivity|]. cbn [hc_alg]. split; [|reflexivity].
  unfold handle_ic_ck. cbn [hc_alg hc_ck ev_ic ic_sidi ic_sidr ic_auth].
  apply ev_open in O2. rewrite !ev_ckmix, ev_tag, ev_ckmix in O2.
  unfold encrypt_and_mix in *. cbn [fst] in O2. change (ev (Lit [])) with (@nil byte) in O2. rewrite O2. reflexivity.
Qed.

(** The tag of EmptyData and the output keys. *)
Lemma ev_ds g ds : ev (s_ds g ds) = ds_compress P g ds.
Proof.
  destruct ds as [|ns labels]; [reflexivity|]. unfold s_ds, ds_compress, hpath.
  assert (G : forall l k, ev (fold_left (fun k l => H g k (Lit l)) l k) = fold_left (hmix P g) l (ev k)).
  { clear. induction l as [|y l IH]; intros k; [reflexivity|]. cbn [fold_left]. rewrite IH. reflexivity. }
  apply G.
Qed.
Theorem C94_keys now core g ck ctr : hc_ck core = ev ck -> hc_alg core = g ->
  let u := enter_live P now core Responder g in
  se_ck u = ev ck /\ aead_enc P (se_txkm u) (ctr ++ zeros 4) [] [] = ev (s_empty g ck ctr) /\
  forall ds, hmix P (se_alg u) (se_ck u) (ds_compress P g ds) = ev (s_osk g ck (s_ds g ds)).
Proof.
  intros H1 H2. cbn zeta. unfold enter_live. cbn [se_ck se_txkm se_alg]. rewrite H1, H2.
  split; [reflexivity|]. split; [reflexivity|]. intros ds. unfold s_osk. cbn [ev]. rewrite ev_ds. reflexivity.
Qed.
End Link.
Print Assumptions C94_init.
Print Assumptions C94_resp.
Print Assumptions C94_conf.
Print Assumptions C94_done.
Print Assumptions C94_keys.

(** The servers of the demonstration run meet the conditions of the theorems above. *)
From Verif Require Import System Demo.
Definition demo_v (n : name) : bytes :=
  match n with
  | NStatic 0 => Demo.skA
  | NStatic _ => Demo.skB
  | NPsk _ => repeat x77 32
  | NBk _ _ => repeat xbb 32
  | NEsk _ => [xaa]
  | NCoin 0 b => if b then [xaa; x02] else [xaa; x01]
  | NCoin _ b => if b then [xbb; x02] else [xbb; x01]
  | NSid 0 => repeat xaa 4
  | NSid _ => repeat xbb 4
  | NNonce _ => tag_nonce (biscuit_slot (secs 2) (Demo.coin xbb) Demo.B1) (repeat xbb 24)
  | NAdv _ => []
  end.
Definition demo_entry (other : nat) : entry := {| e_pk := pkey other; e_psk := Nm (NPsk 0); e_alg := Shake |}.
Example C94_example :
  is_agent Toy.prims demo_v Demo.A1 0 /\ is_agent Toy.prims demo_v Demo.B1 1 /\
  (exists x, pe Demo.A1 0 = Some x /\ is_entry Toy.prims demo_v x (demo_entry 1)) /\
  (exists x, pe Demo.B1 0 = Some x /\ is_entry Toy.prims demo_v x (demo_entry 0)) /\
  find_peer Demo.B1 (ev Toy.prims demo_v (s_pid Shake (pkey 0))) = Some 0 /\
  let c := Demo.coin xbb in
  cs_value (get_bk (biscuit_slot (secs 2) c Demo.B1) (after_biscuit (secs 2) c Demo.B1)) = demo_v (NBk 1 0) /\
  tag_nonce (biscuit_slot (secs 2) c Demo.B1) (c_bnonce c) = demo_v (NNonce 1) /\
  s_find [demo_entry 0] (s_pid Shake (pkey 0)) = Some (demo_entry 0).
Proof.
  split; [split; vm_compute; reflexivity|]. split; [split; vm_compute; reflexivity|].
  split; [eexists; split; [vm_compute; reflexivity|]; split; [vm_compute; reflexivity|]; split; vm_compute; reflexivity|].
  split; [eexists; split; [vm_compute; reflexivity|]; split; [vm_compute; reflexivity|]; split; vm_compute; reflexivity|].
  split; [vm_compute; reflexivity|]. cbn zeta.
  split; [vm_compute; reflexivity|]. split; [vm_compute; reflexivity|].
  unfold s_find. cbn [find]. rewrite term_eqb_refl. reflexivity.
Qed.
