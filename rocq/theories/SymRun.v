(** Every history of the servers, with messages an attacker can make and without a collision or a forgery, is a run of the
    symbolic model: definitions and proofs.  The theorems are in PSymRun.v. *)
From Verif Require Import Base ConstTime Prims HashDomains Wire Server Protocol Wp Inv Rules Calls PollRules System Trans.
From Verif Require Import Spec Forward Sym SymSec PSym PSymLink PHandshake PReplay PRetransmit.

Lemma init_unique cfg tr run A p A' p' : Sym.valid cfg tr -> In (EInit run A p) tr -> In (EInit run A' p') tr -> A = A' /\ p = p'.
Proof.
  induction tr as [|e tr IH]; intros V I I'; [destruct I|].
  destruct I as [->|I], I' as [E|I'].
  - split; congruence.
  - exfalso. inversion V; subst. match goal with F : fresh _ _ |- _ => exact (proj1 F _ _ I') end.
  - exfalso. subst e. inversion V; subst. match goal with F : fresh _ _ |- _ => exact (proj1 F _ _ I) end.
  - apply IH; auto. exact (valid_tail cfg e tr V).
Qed.
Lemma conf_init cfg tr run A p m : Sym.valid cfg tr -> In (EConf run A p m) tr -> In (EInit run A p) tr.
Proof.
  intros V I. destruct (valid_split cfg _ _ V I) as (t2 & t1 & -> & V1). destruct (valid_conf _ _ _ _ _ _ V1) as (_ & J & _).
  apply in_or_app. right. right. exact J.
Qed.

Section Link.
Context (P : prims) (OK : correct P).
(** The bytes that were drawn or configured, and the peers of every agent. *)
Context (v : name -> bytes) (cfg : nat -> list entry).
Notation ev := (ev P v).

(** * What the attacker does not manage *)

(** If the ciphertext opens, somebody made it with this key and nonce. *)
Definition unforged (k n c : term) : Prop :=
  forall pt, aead_dec P (ev k) (ev n) [] (ev c) = Some pt -> exists pt', c = Aead false k n (Lit []) pt'.
Definition unforged0 (k c : term) : Prop := unforged k (Lit (zeros 12)) c.
(** Different terms are different strings. *)
Definition distinct (a b : term) : Prop := ev a = ev b -> a = b.

(** Chaining keys on the way. *)
Definition resp_ck1 (g : halg) (B : nat) (m : s_ih) : term :=
  s_kemmix g (s_ckmix g (s_ckmix g (s_start g (pkey B)) (y_sidi m)) (y_epki m))
    (pkey B) (kdec false (skey B) (y_sctr m)) (y_sctr m).
Definition resp_ck2 (g : halg) (B : nat) (m : s_ih) (q : entry) : term :=
  s_ckmix g (s_ckmix g (s_ckmix g (resp_ck1 g B m) (y_pidct m)) (e_pk q)) (e_psk q).
Definition conf_ck (run A : nat) (p : entry) (m : s_rh) : term :=
  let g := e_alg p in
  s_ckmix g (s_kemmix g (s_kemmix g (s_ckmix g (s_ckmix g (snd (s_init run A p)) (z_sidr m)) (z_sidi m))
    (Pk true (Nm (NEsk run))) (kdec true (Nm (NEsk run)) (z_ecti m)) (z_ecti m))
    (pkey A) (kdec false (skey A) (z_scti m)) (z_scti m)) (z_biscuit m).
Definition done_ck (q : entry) (m : s_ic) (ck : term) : term :=
  let g := e_alg q in
  s_ckmix g (s_ckmix g (snd (s_seal g (s_ckmix g ck (w_biscuit m)) (Lit []))) (w_sidi m)) (w_sidr m).

(** For an InitHello at [B]: both ciphertexts are unforged, and the peer id collides with none. *)
Definition ih_ideal (B : nat) (m : s_ih) : Prop :=
  forall g, unforged0 (s_key g (resp_ck1 g B m)) (y_pidct m) /\
    forall pid q, y_pidct m = s_tag (s_key g (resp_ck1 g B m)) pid -> In q (cfg B) ->
      distinct pid (s_pid (e_alg q) (e_pk q)) /\ unforged0 (s_key g (resp_ck2 g B m q)) (y_auth m).
(** For a RespHello at [A]: if it opens for a handshake with this session id, it is not forged and the
    session id is that of this handshake. *)
Definition rh_ideal (A : nat) (tr : list Sym.event) (m : s_rh) : Prop :=
  forall run p, In (EInit run A p) tr -> ev (z_sidi m) = v (NSid run) ->
    forall pt, aead_dec P (ev (s_key (e_alg p) (conf_ck run A p m))) (zeros 12) [] (ev (z_auth m)) = Some pt ->
      z_sidi m = Nm (NSid run) /\ exists pt', z_auth m = s_tag (s_key (e_alg p) (conf_ck run A p m)) pt'.
(** For an InitConf at server [s] of [B]: a biscuit that opens has the form of a biscuit, its peer id
    collides with none, and the authenticator is unforged. *)
Definition ic_ideal (B : nat) (s : srv) (m : s_ic) : Prop :=
  forall k g pt, cs_value (get_bk (nonce_slot (ev (w_biscuit m))) s) = v (NBk B k) ->
    xdec P (v (NBk B k)) (ev (s_biscuit_adata g (pkey B) (w_sidi m) (w_sidr m))) (ev (w_biscuit m)) = Some pt ->
    exists n pid no ck,
      w_biscuit m = Aead true (Nm (NBk B k)) n (s_biscuit_adata g (pkey B) (w_sidi m) (w_sidr m))
                      (Pair pid (Pair no ck)) /\
      length (ev n) = 24 /\ length (ev pid) = 32 /\ length (ev no) = 12 /\ length (ev ck) = 32 /\
      forall q, In q (cfg B) ->
        distinct pid (s_pid (e_alg q) (e_pk q)) /\ unforged0 (s_key (e_alg q) (done_ck q m ck)) (w_auth m).
(** For an EmptyData at [A]. *)
Definition ed_ideal (A : nat) (tr : list Sym.event) (ctr : bytes) (d : term) : Prop :=
  forall run p m ic ck, In (EConf run A p m) tr -> s_conf run A p m = Some (ic, ck) ->
    unforged (H (e_alg p) ck (s_res_enc (e_alg p))) (Lit (ctr ++ zeros 4)) d.

(** * What is received *)

(** A received message, as the attacker made it. *)
Inductive smsg := SIH (m : s_ih) | SRH (m : s_rh) | SIC (m : s_ic) | SED (d : term) | SNone.

(** The received bytes are the fields of message [M], and the attacker can make them. *)
Definition heard (A : nat) (s : srv) (tr : list Sym.event) (rx : bytes) (M : smsg) : Prop :=
  match first_type rx, M with
  | Some MInitHello, SIH m =>
      parse_ih (env_payload IH_LEN rx) = ev_ih P v m /\
      (forall t, In t (ih_fields m) -> knows cfg tr t) /\ ih_ideal A m
  | Some MRespHello, SRH m =>
      parse_rh (env_payload RH_LEN rx) = ev_rh P v m /\
      (forall t, In t (rh_fields m) -> knows cfg tr t) /\ rh_ideal A tr m
  | Some MInitConf, SIC m =>
      parse_ic (env_payload IC_LEN rx) = ev_ic P v m /\
      (forall t, In t (ic_fields m) -> knows cfg tr t) /\ ic_ideal A s m
  | Some MEmptyData, SED d =>
      ed_auth (parse_ed (env_payload ED_LEN rx)) = ev d /\ knows cfg tr d /\
      ed_ideal A tr (ed_ctr (parse_ed (env_payload ED_LEN rx))) d
  | Some MCookieReply, SNone | None, SNone => True
  | _, _ => False
  end.

(** * What is sent *)

(** The bytes are a message of an event of the run, or a cookie reply. *)
Inductive spoken (tr : list Sym.event) (b : bytes) : Prop :=
| sp_ih run A p : In (EInit run A p) tr -> first_type b = Some MInitHello -> length b = 1060 ->
    parse_ih (env_payload IH_LEN b) = ev_ih P v (fst (s_init run A p)) -> spoken tr b
| sp_rh run B k bno g m q rh ck : In (EResp run B k bno g m) tr ->
    s_resp (cfg B) run B k bno g m = Some (q, rh, ck) -> first_type b = Some MRespHello -> length b = 1100 ->
    parse_rh (env_payload RH_LEN b) = ev_rh P v rh -> spoken tr b
| sp_ic run A p m ic ck : In (EConf run A p m) tr -> s_conf run A p m = Some (ic, ck) ->
    first_type b = Some MInitConf -> length b = 176 ->
    parse_ic (env_payload IC_LEN b) = ev_ic P v ic -> spoken tr b
| sp_ed B k g m ctr q ck : In (EDone B k g m ctr) tr -> s_done (cfg B) B k g m = Some (q, ck) ->
    first_type b = Some MEmptyData -> length b = 64 ->
    parse_ed (env_payload ED_LEN b) =
      {| ed_sid := ev (w_sidi m); ed_ctr := ctr; ed_auth := ev (s_empty (e_alg q) ck ctr) |} -> spoken tr b
| sp_cr : first_type b = Some MCookieReply -> spoken tr b.

(** The message of an outcome. *)
Definition output (r : res err outcome) : option bytes :=
  match r with
  | Ok (RSent b) => Some b
  | Ok (RHandled m) => mr_resp m
  | _ => None
  end.

(** * States *)

(** Agent [A] has taken a RespHello as the answer to its InitHello of [run]. *)
Definition confirmed (A run : nat) (tr : list Sym.event) : Prop := exists q m, In (EConf run A q m) tr.
(** The last handshake that agent [A] has started with the peer of entry [q]. *)
Definition latest (A : nat) (q : entry) (run : nat) (tr : list Sym.event) : Prop :=
  exists t2 t1, tr = t2 ++ EInit run A q :: t1 /\ forall r, ~ In (EInit r A q) t2.
Definition hs_ok (A : nat) (q : entry) (tr : list Sym.event) (h : ihs) : Prop :=
  hs_next h = ExpRespHello -> exists run, In (EInit run A q) tr /\ latest A q run tr /\ ~ confirmed A run tr /\
    hs_sid h = v (NSid run) /\ hc_alg (hs_cor h) = e_alg q /\
    hc_ck (hs_cor h) = ev (snd (s_init run A q)) /\
    hs_epki h = snd (ekem_gen P (v (NEsk run))) /\ hs_eski h = fst (ekem_gen P (v (NEsk run))).
Definition conf_ok (A : nat) (q : entry) (tr : list Sym.event) (h : ihs) (u : session) : Prop :=
  hs_next h = ExpRespConf -> exists run m ic ck, In (EConf run A q m) tr /\
    s_conf run A q m = Some (ic, ck) /\ se_ck u = ev ck /\
    se_txkt u = ev (H (e_alg q) ck (s_res_enc (e_alg q))).
(** A session: its key is that of an initiator or of a responder of the run. *)
Definition ses_ok (A : nat) (q : entry) (tr : list Sym.event) (u : session) : Prop :=
  se_alg u = e_alg q /\ exists ck, se_ck u = ev ck /\
    match se_role u with
    | Initiator => exists run m, initiator_has tr run A q m ck
    | Responder => exists k m, responder_has cfg tr A k q m ck
    end.
(** The buffer for retransmission holds a message of the run. *)
Definition buf_ok (tr : list Sym.event) (h : ihs) : Prop :=
  (hs_tx_len h = 1060 /\ first_type (firstn 1060 (hs_tx_buf h)) = Some MInitHello \/
   hs_tx_len h = 176 /\ first_type (firstn 176 (hs_tx_buf h)) = Some MInitConf) /\
  spoken tr (firstn (hs_tx_len h) (hs_tx_buf h)).
Definition known_ok (tr : list Sym.event) (k : known) : Prop :=
  exists B j g m ctr q ck, In (EDone B j g m ctr) tr /\ s_done (cfg B) B j g m = Some (q, ck) /\
    parse_ed (env_payload ED_LEN (kr_response k)) =
      {| ed_sid := ev (w_sidi m); ed_ctr := ctr; ed_auth := ev (s_empty (e_alg q) ck ctr) |}.

Record peer_ok (A : nat) (q : entry) (tr : list Sym.event) (x : peer) : Prop := {
  po_entry : is_entry P v x q;
  po_hs : forall h, p_handshake x = Some h -> hs_ok A q tr h /\ buf_ok tr h;
  po_conf : forall h u, p_handshake x = Some h -> p_session x = Some u -> conf_ok A q tr h u;
  po_ses : forall u, p_session x = Some u -> ses_ok A q tr u;
  po_known : forall k, p_known x = Some k -> known_ok tr k
}.

Record agent_ok (A : nat) (s : srv) (tr : list Sym.event) : Prop := {
  ao_agent : is_agent P v s A;
  ao_peers : forall i x, pe s i = Some x -> exists q, nth_error (cfg A) i = Some q /\ peer_ok A q tr x;
  ao_bk : forall j, exists k, cs_value (get_bk j s) = v (NBk A k)
}.

(** The random values of a call are the values of [run] of agent [A]. *)
Record named (A run : nat) (now : time) (c : coins) (s : srv) : Prop := {
  nm_sid : c_sid c = v (NSid run);
  nm_kp : c_kp c = v (NEsk run);
  nm_enc1 : c_enc1 c = v (NCoin run false);
  nm_enc2 : c_enc2 c = v (NCoin run true);
  nm_nonce : tag_nonce (biscuit_slot now c s) (c_bnonce c) = v (NNonce run);
  nm_bkey : exists k, c_bkey c = v (NBk A k);
  nm_erase : forall i, i < 2 -> exists k, c_erase c i = v (NBk A k)
}.

(** * Monotonicity *)

Lemma spoken_mono tr tr' b : incl tr tr' -> spoken tr b -> spoken tr' b.
Proof.
  intros L [run A p I|run B k bno g m q rh ck I|run A p m ic ck I|B k g m ctr q ck I|];
    [eapply sp_ih|eapply sp_rh|eapply sp_ic|eapply sp_ed|apply sp_cr]; eauto.
Qed.
(** A further event leaves the last handshake what it was, unless it starts a handshake with the same peer. *)
Lemma latest_cons A q run tr e : (forall r, e <> EInit r A q) -> latest A q run tr -> latest A q run (e :: tr).
Proof.
  intros N (t2 & t1 & -> & F). exists (e :: t2), t1. split; [reflexivity|]. intros r [E|I]; [exact (N r E)|exact (F r I)].
Qed.
(** [tr'] has the events of [tr], no further run of [A] that got its answer, and no further one that [A] has started. *)
Definition grows (A : nat) (tr tr' : list Sym.event) : Prop :=
  incl tr tr' /\ (forall run, confirmed A run tr' -> confirmed A run tr) /\
  forall q run, latest A q run tr -> latest A q run tr'.
Lemma grows_cons A tr e : match e with EConf _ B _ _ | EInit _ B _ => B <> A | _ => True end -> grows A tr (e :: tr).
Proof.
  intros N. split; [intros z; now right|]. split.
  - intros run (q & m & [->|I]); [contradiction|]. now exists q, m.
  - intros q run. apply latest_cons. intros r ->. contradiction.
Qed.
Lemma known_ok_mono tr tr' k : incl tr tr' -> known_ok tr k -> known_ok tr' k.
Proof.
  intros L (B & j & g & m & ctr & q & ck & I & Y). exists B, j, g, m, ctr, q, ck. split; auto.
Qed.
(** What is left of [peer_ok] when any event is added. *)
Lemma peer_ok_more A q tr tr' x : incl tr tr' -> peer_ok A q tr x ->
  (forall h, p_handshake x = Some h -> hs_ok A q tr' h) -> peer_ok A q tr' x.
Proof.
  intros L [E Hh C S K] Ho. constructor; auto.
  - intros h X. destruct (Hh h X) as [_ [X2 X3]]. split; [auto|].
    split; auto. eapply spoken_mono; eauto.
  - intros h u X Y N. destruct (C h u X Y N) as (run & m & ic & ck & I & Z).
    exists run, m, ic, ck. split; auto.
  - intros u X. destruct (S u X) as (A1 & ck & A2 & A3). split; auto. exists ck. split; auto.
    destruct (se_role u).
    + destruct A3 as (run & m & I & Y). exists run, m. split; auto.
    + destruct A3 as (k & m & g & ctr & I & Y). exists k, m, g, ctr. split; auto.
  - intros k X. eapply known_ok_mono; eauto.
Qed.
Lemma peer_ok_mono A q tr tr' x : grows A tr tr' -> peer_ok A q tr x -> peer_ok A q tr' x.
Proof.
  intros (L & U & T) Y. eapply peer_ok_more; [exact L|exact Y|]. intros h X N.
  destruct (proj1 (po_hs _ _ _ _ Y h X) N) as (run & I & La & Nc & Z). exists run. split; [auto|]. split; auto.
Qed.
Lemma agent_ok_mono A s tr tr' : grows A tr tr' -> agent_ok A s tr -> agent_ok A s tr'.
Proof.
  intros L [E Ps B]. constructor; auto. intros i x X. destruct (Ps i x X) as (q & N & Y).
  exists q. split; auto. eapply peer_ok_mono; eauto.
Qed.

(** * The code accepts what the symbolic party accepts *)

Lemma conv_open g ck ct pt ck' : unforged0 (s_key g ck) ct ->
  decrypt_and_mix P g (ev ck) (ev ct) = Some (pt, ck') ->
  exists pt', s_open g ck ct = Some (pt', s_ckmix g ck ct) /\ ct = s_tag (s_key g ck) pt' /\ pt = ev pt' /\
    ck' = ev (s_ckmix g ck ct).
Proof.
  intros U D. unfold decrypt_and_mix in D.
  destruct (aead_dec _ _ _ _ _) as [p|] eqn:E; [|discriminate]. injection D as <- <-.
  destruct (U p E) as [pt' ->]. exists pt'. unfold s_open, sdec, s_tag.
  rewrite !term_eqb_refl. cbn [andb Bool.eqb]. split; [reflexivity|]. split; [reflexivity|]. split; [|reflexivity].
  cbn [PSymLink.ev] in E. rewrite aead_correct in E by exact OK. congruence.
Qed.

(** No two entries of an agent have the same peer id. *)
Definition cfg_ok : Prop :=
  forall A i j q q', nth_error (cfg A) i = Some q -> nth_error (cfg A) j = Some q' ->
    s_pid (e_alg q) (e_pk q) = s_pid (e_alg q') (e_pk q') -> q = q'.

Lemma find_entry A q : cfg_ok -> In q (cfg A) -> s_find (cfg A) (s_pid (e_alg q) (e_pk q)) = Some q.
Proof.
  intros C I. unfold s_find.
  destruct (find _ (cfg A)) as [q'|] eqn:F.
  - apply find_some in F. destruct F as [I' E]. apply term_eqb_true in E.
    apply In_nth_error in I. destruct I as [i I]. apply In_nth_error in I'. destruct I' as [j I'].
    f_equal. symmetry. eapply C; eauto.
  - pose proof (find_none _ _ F q I) as N. cbv beta in N. rewrite term_eqb_refl in N. discriminate.
Qed.

Lemma peer_of s A tr p x id : inv P s -> agent_ok A s tr -> find_peer s id = Some p -> pe s p = Some x ->
  exists q, nth_error (cfg A) p = Some q /\ In q (cfg A) /\ peer_ok A q tr x /\ id = ev (s_pid (e_alg q) (e_pk q)).
Proof.
  intros I G F X. destruct (ao_peers _ _ _ G p x X) as (q & N & Y). exists q. split; [exact N|].
  split; [eapply nth_error_In; eauto|]. split; [exact Y|].
  destruct (po_entry _ _ _ _ Y) as (E1 & _ & E3).
  change (id = peer_id P (e_alg q) (ev (e_pk q))). rewrite <- E1, <- E3.
  unfold find_peer in F. destruct (i_peer1 P s I _ _ F) as (y & Y1 & Y2). unfold pe in *.
  assert (y = x) by congruence. subst y. rewrite <- Y2. reflexivity.
Qed.


Lemma conv_resp now c s tr run B k g m p x ck :
  cfg_ok -> inv P s -> agent_ok B s tr -> ih_ideal B m ->
  ih_accept P s (ev_ih P v m) g = inl (p, x, ck) -> p_alg x = g ->
  named B run now c s ->
  cs_value (get_bk (biscuit_slot now c s) (after_biscuit now c s)) = v (NBk B k) ->
  exists q rh ck', nth_error (cfg B) p = Some q /\
    s_resp (cfg B) run B k (s_bctr s) g m = Some (q, rh, ck') /\
    rh_of P now c s x (ev_ih P v m) g ck = ev_rh P v rh.
Proof.
  intros C I G D A Eg N Bk. assert (Acc := A). unfold ih_accept, handle_ih_dec in A.
  destruct (ao_agent _ _ _ G) as [A1 A2]. rewrite A1, A2 in A.
  cbn [ev_ih ih_sidi ih_epki ih_sctr ih_pidi_ct ih_auth] in A.
  destruct (D g) as [D1 D2].
  assert (E1 : forall a, ck_init P a (ev (pkey B)) = ev (s_start a (pkey B))) by reflexivity.
  assert (E2 : forall a x y, ck_mix P a (ev x) (ev y) = ev (s_ckmix a x y)) by reflexivity.
  assert (E3 : forall a c x y z, kem_mix P a (ev c) (ev x) (ev y) (ev z) = ev (s_kemmix a c x y z)) by reflexivity.
  rewrite <- (ev_kdec_static P OK) in A. rewrite E1, !E2, E3 in A. fold (resp_ck1 g B m) in A.
  destruct (decrypt_and_mix P g (ev (resp_ck1 g B m)) (ev (y_pidct m))) as [[id c1]|] eqn:O1; [|discriminate].
  destruct (conv_open _ _ _ _ _ D1 O1) as (pid & S1 & T1 & -> & ->).
  destruct (find_peer s (ev pid)) as [p'|] eqn:F; [|discriminate].
  destruct (pe s p') as [x'|] eqn:X; [|discriminate].
  destruct (peer_of s B tr p' x' _ I G F X) as (q & Nq & Iq & Pq & Ei).
  destruct (po_entry _ _ _ _ Pq) as (X1 & X2 & X3).
  destruct (D2 pid q T1 Iq) as [D3 D4]. specialize (D3 Ei).
  rewrite X1, X2, !E2 in A. fold (resp_ck2 g B m q) in A.
  destruct (decrypt_and_mix P g (ev (resp_ck2 g B m q)) (ev (y_auth m))) as [[pt c2]|] eqn:O2; [|discriminate].
  destruct (conv_open _ _ _ _ _ D4 O2) as (pt' & S2 & T2 & -> & ->).
  assert (p' = p) by congruence. assert (x' = x) by congruence. subst p' x'.
  exists q.
  assert (R : exists rh ck', s_resp (cfg B) run B k (s_bctr s) g m = Some (q, rh, ck')).
  { unfold s_resp. fold (resp_ck1 g B m). rewrite S1, D3, (find_entry B q C Iq).
    fold (resp_ck2 g B m q). rewrite S2. rewrite <- X3, Eg.
    assert (halg_eqb g g = true) as -> by (destruct g; reflexivity).
    cbn [s_seal]. eexists. eexists. reflexivity. }
  destruct R as (rh & ck' & R). exists rh, ck'. split; [exact Nq|]. split; [exact R|].
  assert (F' : find_peer s (ev (s_pid (e_alg q) (e_pk q))) = Some p) by (rewrite <- D3; exact F).
  pose proof (C94_resp P OK v now c s p x (cfg B) run B k (s_bctr s) g m q rh ck' I (conj A1 A2) R
    F' X (conj X1 (conj X2 X3)) (nm_sid _ _ _ _ _ N) (nm_enc1 _ _ _ _ _ N) (nm_enc2 _ _ _ _ _ N)
    eq_refl Bk (nm_nonce _ _ _ _ _ N)) as L.
  rewrite handle_init_hello_eq in L by exact I. rewrite Acc in L.
  assert (Ok (p, rh_of P now c s x (ev_ih P v m) g ck) = Ok (E := err) (p, ev_rh P v rh)) as L' by
    exact (f_equal snd L).
  congruence.
Qed.

Lemma conv_conf s tr run A q m h ic core :
  is_agent P v s A -> In (EInit run A q) tr -> rh_ideal A tr m ->
  hs_sid h = v (NSid run) -> hc_alg (hs_cor h) = e_alg q -> hc_ck (hs_cor h) = ev (snd (s_init run A q)) ->
  hs_epki h = snd (ekem_gen P (v (NEsk run))) -> hs_eski h = fst (ekem_gen P (v (NEsk run))) ->
  hs_sid h = rh_sidi (ev_rh P v m) ->
  handle_rh_compute P s h (ev_rh P v m) = Some (ic, core) ->
  exists ic' ck, s_conf run A q m = Some (ic', ck) /\ ic = ev_ic P v ic' /\ hc_ck core = ev ck /\
    hc_alg core = e_alg q.
Proof.
  intros G I D H1 H2 H3 H4 H5 H6 R.
  assert (Sx : exists r, s_conf run A q m = Some r).
  { assert (R' := R). unfold handle_rh_compute in R'. destruct G as [A1 A2].
    rewrite H2, H3, H4, H5, A1, A2 in R'.
    cbn [ev_rh rh_sidr rh_sidi rh_ecti rh_scti rh_biscuit rh_auth] in R'.
    assert (E2 : forall a x y, ck_mix P a (ev x) (ev y) = ev (s_ckmix a x y)) by reflexivity.
    assert (E3 : forall a c x y z, kem_mix P a (ev c) (ev x) (ev y) (ev z) = ev (s_kemmix a c x y z)) by reflexivity.
    change (snd (ekem_gen P (v (NEsk run)))) with (ev (Pk true (Nm (NEsk run)))) in R'.
    change (v (NEsk run)) with (ev (Nm (NEsk run))) in R'.
    rewrite <- (ev_kdec_static P OK), <- (ev_kdec_ephemeral P OK) in R'. rewrite !E2, !E3, !E2 in R'.
    fold (conf_ck run A q m) in R'.
    destruct (decrypt_and_mix _ _ _ _) as [[pt c]|] eqn:O; [|discriminate]. clear R'.
    assert (O' := O). unfold decrypt_and_mix in O.
    destruct (aead_dec _ _ _ _ _) as [pt0|] eqn:O0; [|discriminate].
    destruct (D run q I (eq_trans (eq_sym H6) H1) pt0 O0) as [D1 [pt' D2]].
    assert (T : term_eqb (z_sidi m) (Nm (NSid run)) = true) by (rewrite D1; apply term_eqb_refl).
    unfold s_conf. rewrite T. fold (conf_ck run A q m).
    assert (U : unforged0 (s_key (e_alg q) (conf_ck run A q m)) (z_auth m)).
    { intros z _. exists pt'. exact D2. }
    destruct (conv_open _ _ _ _ _ U O') as (pt2 & S1 & _). rewrite S1. cbn [s_seal]. eexists. reflexivity. }
  destruct Sx as [[ic' ck] Sx]. exists ic', ck. split; [exact Sx|].
  destruct (C94_conf P OK v s h run A q m ic' ck G H2 H3 H4 H5 Sx) as (core' & E & K1 & K2).
  rewrite R in E. assert (ic = ev_ic P v ic') by congruence. assert (core = core') by congruence. subst core'. auto.
Qed.

(** The number in the biscuit of an InitConf. *)
Definition conf_number (m : s_ic) : option bytes :=
  match w_biscuit m with Aead _ _ _ _ (Pair _ (Pair no _)) => Some (ev no) | _ => None end.

Lemma conv_done s tr B k g m p x bno core :
  cfg_ok -> inv P s -> agent_ok B s tr -> ic_ideal B s m ->
  cs_value (get_bk (nonce_slot (ev (w_biscuit m))) s) = v (NBk B k) ->
  ic_accept P s (ev_ic P v m) g = inl (p, x, bno, core) ->
  exists q ck, nth_error (cfg B) p = Some q /\ s_done (cfg B) B k g m = Some (q, ck) /\
    hc_ck core = ev ck /\ hc_alg core = e_alg q /\ hc_sidi core = ev (w_sidi m) /\ conf_number m = Some bno.
Proof.
  intros C I G D Bk A. destruct (ao_agent _ _ _ G) as [A1 A2].
  unfold ic_accept in A. cbn [ev_ic ic_sidi ic_sidr ic_biscuit ic_auth] in A. rewrite Bk, A1 in A.
  change (biscuit_ad P g (ev (pkey B)) (ev (w_sidi m)) (ev (w_sidr m))) with
    (ev (s_biscuit_adata g (pkey B) (w_sidi m) (w_sidr m))) in A.
  destruct (xdec _ _ _ _) as [pt|] eqn:O; [|discriminate].
  destruct (D k g pt Bk O) as (n & pid & no & c0 & W & L1 & L2 & L3 & L4 & D').
  assert (Ept : pt = ser_bi {| bi_pidi := ev pid; bi_no := ev no; bi_ck := ev c0 |}).
  { rewrite W in O. cbn [PSymLink.ev] in O. rewrite (xdec_xenc P _ _ _ _ OK L1) in O. injection O as <-. reflexivity. }
  rewrite Ept in A. rewrite parse_ser_bi in A by (repeat split; assumption). cbn [bi_pidi bi_no bi_ck] in A.
  destruct (find_peer s (ev pid)) as [p'|] eqn:F; [|discriminate].
  destruct (pe s p') as [x'|] eqn:X; [|discriminate].
  destruct (peer_of s B tr p' x' _ I G F X) as (q & Nq & Iq & Pq & Ei).
  destruct (po_entry _ _ _ _ Pq) as (X1 & X2 & X3). destruct (D' q Iq) as [D1 D2]. specialize (D1 Ei).
  rewrite X3 in A.
  destruct (handle_ic_ck P _ _) as [ck|] eqn:K; [|discriminate].
  destruct (_ <=? _)%N; [discriminate|]. injection A as <- <- <- <-. cbn [hc_ck hc_alg hc_sidi].
  unfold handle_ic_ck in K. cbn [hc_alg hc_ck ev_ic ic_sidi ic_sidr ic_auth] in K.
  change (ck_mix P (e_alg q) (ev c0) (ev (w_biscuit m))) with (ev (s_ckmix (e_alg q) c0 (w_biscuit m))) in K.
  change (@nil byte) with (ev (Lit [])) in K. rewrite ev_seal in K.
  set (sl := s_seal (e_alg q) (s_ckmix (e_alg q) c0 (w_biscuit m)) (Lit [])) in *.
  assert (E2 : forall a x y, ck_mix P a (ev x) (ev y) = ev (s_ckmix a x y)) by reflexivity.
  rewrite !E2 in K. unfold sl in K. fold (done_ck q m c0) in K.
  destruct (decrypt_and_mix _ _ _ _) as [[pt1 c1]|] eqn:O1; [|discriminate].
  destruct (conv_open _ _ _ _ _ D2 O1) as (pt2 & S1 & _ & _ & ->). injection K as <-.
  exists q, (s_ckmix (e_alg q) (done_ck q m c0) (w_auth m)).
  split; [exact Nq|].
  split; [|split; [reflexivity|split; [reflexivity|split; [reflexivity|unfold conf_number; rewrite W; reflexivity]]]].
  assert (U : s_unbiscuit B k g (w_sidi m) (w_sidr m) (w_biscuit m) = Some (pid, c0)).
  { rewrite W. unfold s_unbiscuit, sdec. rewrite !term_eqb_refl. reflexivity. }
  unfold s_done. rewrite U, D1, (find_entry B q C Iq).
  unfold done_ck in S1. unfold s_seal in *. cbn [snd] in S1. rewrite S1. reflexivity.
Qed.


(** * States after a call *)

Lemma agent_upd A s s' tr p x' f q : agent_ok A s tr -> st_rel s s' p x' f ->
  nth_error (cfg A) p = Some q -> peer_ok A q tr x' -> agent_ok A s' tr.
Proof.
  intros [[A1 A2] Ps B] R N Y. pose proof (sr_rest _ _ _ _ _ R) as E. unfold rest in E.
  assert (s_sskm s' = s_sskm s) by congruence. assert (s_spkm s' = s_spkm s) by congruence.
  assert (s_bk0 s' = s_bk0 s) by congruence. assert (s_bk1 s' = s_bk1 s) by congruence.
  constructor.
  - split; congruence.
  - intros i x X. rewrite (sr_pe _ _ _ _ _ R) in X. destruct (Nat.eqb_spec p i) as [->|_]; [|auto].
    assert (x' = x) by congruence. subst. eauto.
  - intros j. destruct (B j) as [k Hk]. exists k. destruct j; cbn [get_bk] in *; congruence.
Qed.
Lemma agent_frame A s s' tr : agent_ok A s tr -> s_sskm s' = s_sskm s -> s_spkm s' = s_spkm s ->
  s_peers s' = s_peers s -> (forall j, exists k, cs_value (get_bk j s') = v (NBk A k)) -> agent_ok A s' tr.
Proof.
  intros [[A1 A2] Ps B] E1 E2 E3 K. constructor; [split; congruence| |exact K].
  intros i x X. unfold pe in X. rewrite E3 in X. exact (Ps i x X).
Qed.
Lemma agent_biscuit A s tr run now c : agent_ok A s tr -> named A run now c s -> agent_ok A (after_biscuit now c s) tr.
Proof.
  intros G N. destruct (after_biscuit_frame now c s) as (F1 & F2 & _ & F4 & _).
  apply (agent_frame A s); auto. intros j. unfold after_biscuit, bk_choice.
  destruct (nm_bkey _ _ _ _ _ N) as [k Hk].
  destruct (bk_lifecycle _ _); cbn [fst]; try exact (ao_bk _ _ _ G j);
    destruct (_ <? _)%Z, j; cbn [get_bk set_bk s_bk0 s_bk1 cs_value set_bctr];
    try exact (ex_intro _ k Hk); try exact (ao_bk _ _ _ G false); exact (ao_bk _ _ _ G true).
Qed.
Lemma agent_choice A s tr now c : agent_ok A s tr -> agent_ok A (fst (cs_choice now c s)) tr.
Proof.
  intros G. destruct (cs_choice_frame now c s) as (F1 & F2 & _ & F4 & F5 & F6 & _).
  apply (agent_frame A s); auto. intros j. destruct (ao_bk _ _ _ G j) as [k Hk]. exists k.
  destruct j; cbn [get_bk] in *; congruence.
Qed.
Lemma named_choice A run now c s : named A run now c s -> named A run now c (fst (cs_choice now c s)).
Proof.
  intros [N1 N2 N3 N4 N5 N6 N7]. constructor; auto. rewrite <- N5. f_equal.
  destruct (cs_choice_frame now c s) as (_ & _ & F3 & F4 & F5 & _).
  unfold biscuit_slot, bk_choice. cbn [set_bctr s_bk0 s_bk1]. rewrite F4, F5.
  match goal with |- context [get_bk ?r (set_bctr ?a ?t)] => 
    change (get_bk r (set_bctr a t)) with (get_bk r t) end.
  destruct (_ >=? _)%Z; unfold get_bk, set_bctr; cbn [s_bk0 s_bk1]; rewrite ?F4, ?F5;
    destruct (bk_lifecycle _ _); reflexivity.
Qed.

Lemma commit_type x t n payload tx : first_type (commit_msg P x t n payload tx) = Some t.
Proof.
  pose proof (commit_head P x t n payload tx) as E. unfold is_type in E. unfold first_type.
  destruct (commit_msg P x t n payload tx) as [|b l]; [discriminate|].
  assert (b = mt_code t) by (cbn in E; congruence). subst. destruct t; reflexivity.
Qed.

Lemma buf_stored tr now c msg h : spoken tr msg -> length (hs_tx_buf h) = 2500 ->
  (length msg = 1060 /\ first_type msg = Some MInitHello \/ length msg = 176 /\ first_type msg = Some MInitConf) ->
  buf_ok tr (stored now c msg h).
Proof.
  intros Sp L K. unfold buf_ok, stored. cbn [hs_tx_len hs_tx_buf set_retry set_tx].
  assert (F : firstn (length msg) (cpy_min msg (hs_tx_buf h)) = msg).
  { apply cpy_min_prefix. destruct K as [[K _]|[K _]]; lia. }
  rewrite F. split; [|exact Sp].
  destruct K as [[K T]|[K T]]; [left|right]; (split; [exact K|]); rewrite <- K, F; exact T.
Qed.

Lemma conf_session A q tr now core run m ic ck :
  hc_ck core = ev ck -> hc_alg core = e_alg q -> s_conf run A q m = Some (ic, ck) -> In (EConf run A q m) tr ->
  let u := enter_live P now core Initiator (e_alg q) in
  ses_ok A q tr u /\ se_ck u = ev ck /\ se_txkt u = ev (H (e_alg q) ck (s_res_enc (e_alg q))).
Proof.
  intros H1 H2 S I. cbn zeta. unfold enter_live, ses_ok. cbn [se_alg se_ck se_role se_txkt]. rewrite H1, H2.
  split; [|split; reflexivity]. split; [reflexivity|]. exists ck. split; [reflexivity|].
  exists run, m. split; [exact I|]. exists ic. exact S.
Qed.

(** What a call from [s] to [s'] does to a peer: the handshake of peer [i] waits for [w]; peer [i] has no handshake; the number of
    the biscuit of [m] is the new, higher value of the counter of peer [i]. *)
Definition awaits (s : srv) (i : nat) (w : hsm) : Prop :=
  exists x h, pe s i = Some x /\ p_handshake x = Some h /\ hs_next h = w.
Definition idle (s : srv) (i : nat) : Prop := exists x, pe s i = Some x /\ p_handshake x = None.
Definition counted (s s' : srv) (i : nat) (m : s_ic) : Prop :=
  exists x x', pe s i = Some x /\ pe s' i = Some x' /\ conf_number m = Some (p_biscuit_used x') /\
    (le_dec (p_biscuit_used x) < le_dec (p_biscuit_used x'))%N.
Definition has_key (A : nat) (s : srv) (k : nat) : Prop := exists b, cs_value (get_bk b s) = v (NBk A k).

(** An event that server [A] causes in a call from state [s] to state [s'], after the events [tr]: it starts a handshake with its
    peer [o], or acts on message [M]. *)
Definition causes (A : nat) (s s' : srv) (run : nat) (o : option nat) (M : smsg) (tr : list Sym.event) (e : Sym.event) : Prop :=
  match e with
  | EInit r B q => r = run /\ B = A /\ exists i, o = Some i /\ nth_error (cfg A) i = Some q /\ awaits s' i ExpRespHello
  | EResp r B k bno _ m => r = run /\ B = A /\ M = SIH m /\ has_key A s' k /\ bno = s_bctr s /\ s_bctr s' = increment (s_bctr s)
  | EConf r B q m => B = A /\ M = SRH m /\ ~ confirmed A r tr /\ latest A q r tr /\
      exists i, nth_error (cfg A) i = Some q /\ awaits s i ExpRespHello /\ awaits s' i ExpRespConf
  | EDone B k g m _ => B = A /\ M = SIC m /\ has_key A s' k /\
      exists i q ck, s_done (cfg A) A k g m = Some (q, ck) /\ nth_error (cfg A) i = Some q /\ counted s s' i m
  | EFin _ B q _ _ d => B = A /\ M = SED d /\
      exists i, nth_error (cfg A) i = Some q /\ awaits s i ExpRespConf /\ idle s' i
  | EReveal _ | EOsk _ _ _ => False
  end.
(** The run is extended by at most one event. *)
Definition extends (A : nat) (s s' : srv) (run : nat) (o : option nat) (M : smsg) (tr tr' : list Sym.event) : Prop :=
  tr' = tr \/ exists e, causes A s s' run o M tr e /\ tr' = e :: tr.
Lemma extends_incl A s s' run o M tr tr' : extends A s s' run o M tr tr' -> incl tr tr'.
Proof. intros [->|(e & _ & ->)] x I; [exact I|now right]. Qed.
Lemma causes_agent A s s' run o M tr e :
  causes A s s' run o M tr e -> match e with EConf _ B _ _ | EInit _ B _ => B = A | _ => True end.
Proof. destruct e; cbn [causes]; auto; [intros (_ & -> & _)|intros [-> _]]; reflexivity. Qed.
Lemma extends_grows A s s' run o M tr tr' B : B <> A -> extends A s s' run o M tr tr' -> grows B tr tr'.
Proof.
  intros N [->|(e & Ce & ->)]; [split; [intros z; auto|auto]|]. apply grows_cons. apply causes_agent in Ce.
  destruct e; auto; congruence.
Qed.
Lemma extends_from A s0 s s' run o M tr tr' : s_peers s0 = s_peers s -> s_bctr s0 = s_bctr s ->
  extends A s0 s' run o M tr tr' -> extends A s s' run o M tr tr'.
Proof.
  intros E1 E2 [->|(e & Ce & ->)]; [now left|]. right. exists e. split; [|reflexivity].
  assert (Ep : forall i, pe s0 i = pe s i) by (intros i; unfold pe; now rewrite E1).
  destruct e; cbn [causes] in *; unfold awaits, counted in *; auto.
  - now rewrite <- E2.
  - destruct Ce as (C1 & C2 & C3 & C3' & i & C4). repeat (split; [assumption|]). exists i. now rewrite <- Ep.
  - destruct Ce as (C1 & C2 & C3 & i & q & ck & C4). repeat (split; [assumption|]). exists i, q, ck. now rewrite <- Ep.
  - destruct Ce as (C1 & C2 & i & C4). repeat (split; [assumption|]). exists i. now rewrite <- Ep.
Qed.

(** A server has no two peers with the same entry. *)
Lemma entry_once A s tr i j x y q : inv P s -> agent_ok A s tr -> pe s i = Some x -> pe s j = Some y ->
  nth_error (cfg A) i = Some q -> nth_error (cfg A) j = Some q -> i = j.
Proof.
  intros I G X Y Ni Nj.
  destruct (ao_peers _ _ _ G i x X) as (q1 & N1 & Y1). destruct (ao_peers _ _ _ G j y Y) as (q2 & N2 & Y2).
  assert (q1 = q) by congruence. assert (q2 = q) by congruence. subst q1 q2.
  destruct (po_entry _ _ _ _ Y1) as (E1 & _ & E3). destruct (po_entry _ _ _ _ Y2) as (F1 & _ & F3).
  pose proof (i_peer2 P s I i x X) as K1. pose proof (i_peer2 P s I j y Y) as K2.
  unfold pidt in *. rewrite E1, E3 in K1. rewrite F1, F3 in K2. congruence.
Qed.

(** An InitHello gets its answer: no other handshake of the server belongs to the same run. *)
Lemma agent_conf A s s' tr p x x' f q run m : Sym.valid cfg tr -> inv P s -> agent_ok A s tr -> pe s p = Some x -> st_rel s s' p x' f ->
  nth_error (cfg A) p = Some q -> In (EInit run A q) tr -> peer_ok A q (EConf run A q m :: tr) x' ->
  agent_ok A s' (EConf run A q m :: tr).
Proof.
  intros V I G X0 R N In0 Y. pose proof G as [[A1 A2] Ps B]. pose proof (sr_rest _ _ _ _ _ R) as E. unfold rest in E.
  assert (s_sskm s' = s_sskm s) by congruence. assert (s_spkm s' = s_spkm s) by congruence.
  assert (s_bk0 s' = s_bk0 s) by congruence. assert (s_bk1 s' = s_bk1 s) by congruence.
  constructor.
  - split; congruence.
  - intros i y X. rewrite (sr_pe _ _ _ _ _ R) in X. destruct (Nat.eqb_spec p i) as [->|Np].
    + assert (x' = y) by congruence. subst. eauto.
    + destruct (Ps i y X) as (q' & N' & Y'). exists q'. split; [exact N'|].
      assert (incl tr (EConf run A q m :: tr)) as Inc by (intros z; now right).
      eapply peer_ok_more; [exact Inc|exact Y'|]. intros h Xh Hn.
      destruct (proj1 (po_hs _ _ _ _ Y' h Xh) Hn) as (run' & I' & La & Nc & Z). exists run'. split; [auto|].
      split; [apply latest_cons; [discriminate|exact La]|]. split; [|exact Z].
      intros (q0 & m0 & [Ec|Ic]); [|apply Nc; now exists q0, m0].
      assert (run' = run) by congruence. subst run'.
      destruct (init_unique _ _ _ _ _ _ _ V In0 I') as [_ <-]. apply Np.
      exact (entry_once A s tr p i x y q I G X0 X N N').
  - intros j. destruct (B j) as [k Hk]. exists k. destruct j; cbn [get_bk] in *; congruence.
Qed.

(** The server starts a handshake: those with other peers are as they were. *)
Lemma agent_init A s s' tr p x x' f q run : inv P s -> agent_ok A s tr -> pe s p = Some x -> st_rel s s' p x' f ->
  nth_error (cfg A) p = Some q -> peer_ok A q (EInit run A q :: tr) x' -> agent_ok A s' (EInit run A q :: tr).
Proof.
  intros I G X0 R N Y. pose proof G as [[A1 A2] Ps B]. pose proof (sr_rest _ _ _ _ _ R) as E. unfold rest in E.
  assert (s_sskm s' = s_sskm s) by congruence. assert (s_spkm s' = s_spkm s) by congruence.
  assert (s_bk0 s' = s_bk0 s) by congruence. assert (s_bk1 s' = s_bk1 s) by congruence.
  constructor.
  - split; congruence.
  - intros i y X. rewrite (sr_pe _ _ _ _ _ R) in X. destruct (Nat.eqb_spec p i) as [->|Np].
    + assert (x' = y) by congruence. subst. eauto.
    + destruct (Ps i y X) as (q' & N' & Y'). exists q'. split; [exact N'|].
      assert (incl tr (EInit run A q :: tr)) as Inc by (intros z; now right).
      eapply peer_ok_more; [exact Inc|exact Y'|]. intros h Xh Hn.
      destruct (proj1 (po_hs _ _ _ _ Y' h Xh) Hn) as (run' & I' & La & Nc & Z). exists run'. split; [auto|]. split; [|split; [|exact Z]].
      * apply latest_cons; [|exact La]. intros r Er. apply Np. assert (q' = q) by congruence. subst q'.
        exact (entry_once A s tr p i x y q I G X0 X N N').
      * intros (q0 & m0 & [Ec|Ic]); [discriminate Ec|]. apply Nc. now exists q0, m0.
  - intros j. destruct (B j) as [k Hk]. exists k. destruct j; cbn [get_bk] in *; congruence.
Qed.

Definition done_event (A : nat) (tr : list Sym.event) (q : entry) (k : nat) (g : halg) (m : s_ic) (ck : term) : Prop :=
  In (EDone A k g m (le_enc 8 0)) tr /\ s_done (cfg A) A k g m = Some (q, ck).

Lemma done_peer A q tr now x bno core k g m ck : peer_ok A q tr x -> done_event A tr q k g m ck ->
  hc_ck core = ev ck -> hc_alg core = e_alg q -> peer_ok A q tr (ic_peer P now x bno core).
Proof.
  intros [(X1 & X2 & X3) Hh C S K] [I D] H1 H2. constructor; cbn [ic_peer set_handshake set_session set_biscuit_used p_handshake p_session p_known].
  - repeat split; assumption.
  - intros h Q. discriminate.
  - intros h u Q. discriminate.
  - intros u Q. assert (u = set_txnm 1 (ic_session P now x core)) by congruence. subst u.
    unfold ses_ok, ic_session, enter_live. cbn [set_txnm se_alg se_ck se_role]. split; [exact H2|].
    exists ck. split; [exact H1|]. exists k, m, g, (le_enc 8 0). split; assumption.
  - exact K.
Qed.

Lemma failed_ok A s s' tr ic a : agent_ok A s tr -> inv P s -> ic_failed P s ic a s' -> length (ic_biscuit ic) = 116 ->
  agent_ok A s' tr.
Proof.
  intros G I [[-> _]|(p & x & bno & core & q & E & _ & _ & R)] L; [exact G|].
  destruct (ic_accept_bno P _ _ _ _ _ _ _ L E) as (_ & X & _).
  destruct (ao_peers _ _ _ G p x X) as (q0 & N & Y). apply (agent_upd A s s' tr p _ _ q0 G R N).
  destruct Y as [E1 Hh C S K]. constructor; cbn [set_session set_biscuit_used p_handshake p_session p_known]; auto.
  - intros h u _ Q. discriminate.
  - intros u Q. discriminate.
Qed.

Lemma key_kept A s s' p x' f k : st_rel s s' p x' f -> has_key A s k -> has_key A s' k.
Proof.
  intros R [b Hb]. exists b. pose proof (sr_rest _ _ _ _ _ R) as E. unfold rest in E. rewrite <- Hb.
  destruct b; cbn [get_bk]; congruence.
Qed.
Lemma failed_bk s s' ic a b : ic_failed P s ic a s' -> get_bk b s' = get_bk b s.
Proof.
  intros [[-> _]|(p & x & bno & core & q & _ & _ & _ & R)]; [reflexivity|].
  pose proof (sr_rest _ _ _ _ _ R) as E. unfold rest in E. destruct b; cbn [get_bk]; congruence.
Qed.

Lemma counts s s0 s' p x x' m bno : keep P s s0 -> pe s0 p = Some x -> pe s' p = Some x' ->
  conf_number m = Some bno -> (le_dec (p_biscuit_used x) < le_dec bno)%N -> p_biscuit_used x' = bno -> counted s s' p m.
Proof.
  intros [K _] X X' E Lt Eb. assert (p < npeers s) as Lp by (rewrite <- (g_n _ _ _ K); eapply pe_lt; eauto).
  destruct (pe_some s p Lp) as [y Y]. destruct (ev_pe _ _ (g_evo _ _ _ K) p y Y) as (x1 & X1 & W).
  assert (x1 = x) by congruence. subst x1. exists y, x'. rewrite Eb. repeat split; auto. destruct W. lia.
Qed.

Lemma msg_sim A run tr now c rx M0 tx s s' r :
  cfg_ok -> Sym.valid cfg tr -> inv P s -> agent_ok A s tr -> wf_coins c -> 1100 <= length tx ->
  named A run now c s -> fresh run tr -> heard A s tr rx M0 -> msgstep P now c rx tx s s' r ->
  exists tr', extends A s s' run None M0 tr tr' /\ Sym.valid cfg tr' /\ agent_ok A s' tr' /\
    forall m b, r = Ok m -> mr_resp m = Some b -> spoken tr' b.
Proof.
  intros C V I G W T N F Hd M.
  assert (Same : agent_ok A s' tr -> (forall m b, r = Ok m -> mr_resp m = Some b -> spoken tr b) ->
    exists tr', extends A s s' run None M0 tr tr' /\ Sym.valid cfg tr' /\ agent_ok A s' tr' /\
      forall m b, r = Ok m -> mr_resp m = Some b -> spoken tr' b).
  { intros Q1 Q2. exists tr. split; [now left|]. auto. }
  unfold heard in Hd.
  destruct M as [e|p x ck a e FT L Ih|p x ck FT L Ih Se|p x h ic core s1 FT L Hi X Hh Hs Hn Hc Se R
    |p x h ic core s1 FT L Hi X Hh Hs Hn Hc Se R|p x k FT L Hi X Hk Hm Se|e s1 s2 FT L Hi F1 F2 K1 K2
    |s0 a p x bno core s1 e FT L Hi HA K0 K1 Ac SF R|s0 p x bno core s1 s2 FT L Hi HA K0 K1 Ac SF R Se R2
    |p x h u FT L Hi X Hh Hs Hn Hu Se Hc D|p x h u s1 pt FT L Hi X Hh Hs Hn Hu Se Hc D R
    |p x h mac w FT L Hi X Hd' Hh Hm D|p x h mac w FT L Hi X Hd' Hh Hm D];
    try (rewrite FT in Hd).
  - apply Same; [exact G|discriminate].
  - apply Same; [eapply agent_biscuit; eauto|discriminate].
  - (* InitHello answered *)
    destruct M0 as [m| | | |]; try contradiction. destruct Hd as (Em & Kn & Id). rewrite Em in *. destruct (ih_try_pe P _ _ _ _ _ _ Ih) as [X Ac].
    pose proof (agent_biscuit A s tr run now c G N) as G'.
    destruct (ao_bk _ _ _ G' (biscuit_slot now c s)) as [k Hk].
    destruct (conv_resp now c s tr run A k (p_alg x) m p x ck C I G Id Ac eq_refl N Hk) as (q & rh & ck' & Nq & S & Er).
    exists (EResp run A k (s_bctr s) (p_alg x) m :: tr). split; [right; eexists; split; [|reflexivity]; repeat split; [eexists; exact Hk|apply after_biscuit_frame]|]. split; [eapply v_resp; eauto|].
    split; [eapply agent_ok_mono; [|exact G']; now apply grows_cons|].
    intros mr b Emr Eb. assert (mr = handled None (Some (rh_msg P now c s x (ev_ih P v m) (p_alg x) ck tx))) by congruence.
    subst mr. cbn [handled mr_resp] in Eb.
    assert (b = rh_msg P now c s x (ev_ih P v m) (p_alg x) ck tx) by congruence. subst b.
    assert (wf_ih (ev_ih P v m)) as WI by (rewrite <- Em; now apply wf_rx_ih).
    assert (wf_rh (rh_of P now c s x (ev_ih P v m) (p_alg x) ck)) as WR by
      (apply rh_of_wf; [exact W|apply WI|apply (i_bctr P s I)]).
    assert (length (ser_rh (rh_of P now c s x (ev_ih P v m) (p_alg x) ck)) = RH_LEN) as LR by (apply ser_rh_len; exact WR).
    unfold rh_msg. eapply sp_rh; [now left|exact S|apply commit_type|exact (commit_msg_len P _ _ _ _ _ LR T)|].
    rewrite (payload_of P _ _ _ _ _ LR T). rewrite parse_ser_rh by exact WR. exact Er.
  - (* RespHello processed, wrong seal *)
    destruct M0 as [m| | | |]; try contradiction. destruct Hd as (Em & Kn & Id). rewrite Em in *.
    destruct (ao_peers _ _ _ G p x X) as (q & Nq & Y). destruct (po_hs _ _ _ _ Y h Hh) as [Y1 Y2].
    destruct (Y1 Hn) as (run0 & I0 & La & Nc & B1 & B2 & B3 & B4 & B5).
    destruct (conv_conf s tr run0 A q m h ic core (ao_agent _ _ _ G) I0 Id B1 B2 B3 B4 B5 Hs Hc) as (ic' & ck & S & E1 & E2 & E3).
    exists (EConf run0 A q m :: tr). split.
    { right. eexists. split; [|reflexivity]. cbn [causes]. split; [reflexivity|]. split; [reflexivity|]. split; [exact Nc|]. split; [exact La|].
      exists p. split; [exact Nq|]. split; [now exists x, h|]. do 2 eexists. split; [eapply st_rel_self; exact R|]. split; reflexivity. }
    split; [eapply v_conf; eauto|].
    assert (In (EConf run0 A q m) (EConf run0 A q m :: tr)) as In0 by now left.
    assert (incl tr (EConf run0 A q m :: tr)) as Inc by (intros z; now right).
    split; [|discriminate].
    apply (agent_conf A s s1 tr p x _ _ q run0 m V I G X R Nq I0).
    destruct (po_entry _ _ _ _ Y) as (X1 & X2 & X3).
    destruct (conf_session A q _ now core run0 m ic' ck E2 E3 S In0) as (U1 & U2 & U3).
    constructor; cbn [rh_peer set_handshake set_session p_handshake p_session p_known]; rewrite ?X3.
    + repeat split; assumption.
    + intros h' Q. assert (h' = erased h) by congruence. subst h'. split; [discriminate|].
      destruct Y2 as [Y3 Y4]. split; [exact Y3|]. eapply spoken_mono; [exact Inc|exact Y4].
    + intros h' u Q Q'. assert (u = enter_live P now core Initiator (e_alg q)) by congruence. subst u.
      intros _. exists run0, m, ic', ck. auto.
    + intros u Q'. assert (u = enter_live P now core Initiator (e_alg q)) by congruence. subst u. exact U1.
    + intros k Q. eapply known_ok_mono; [exact Inc|]. exact (po_known _ _ _ _ Y k Q).
  - (* RespHello *)
    destruct M0 as [m| | | |]; try contradiction. destruct Hd as (Em & Kn & Id). rewrite Em in *.
    destruct (ao_peers _ _ _ G p x X) as (q & Nq & Y). destruct (po_hs _ _ _ _ Y h Hh) as [Y1 Y2].
    destruct (Y1 Hn) as (run0 & I0 & La & Nc & B1 & B2 & B3 & B4 & B5).
    destruct (conv_conf s tr run0 A q m h ic core (ao_agent _ _ _ G) I0 Id B1 B2 B3 B4 B5 Hs Hc) as (ic' & ck & S & E1 & E2 & E3).
    exists (EConf run0 A q m :: tr). split.
    { right. eexists. split; [|reflexivity]. cbn [causes]. split; [reflexivity|]. split; [reflexivity|]. split; [exact Nc|]. split; [exact La|].
      exists p. split; [exact Nq|]. split; [now exists x, h|]. do 2 eexists. split; [eapply st_rel_self; exact R|]. split; reflexivity. }
    split; [eapply v_conf; eauto|].
    assert (In (EConf run0 A q m) (EConf run0 A q m :: tr)) as In0 by now left.
    assert (incl tr (EConf run0 A q m :: tr)) as Inc by (intros z; now right).
    assert (wf_rh (ev_rh P v m)) as WR by (rewrite <- Em; now apply wf_rx_rh).
    pose proof (wf_ic_of P _ _ _ _ _ WR Hc) as WC.
    assert (length (ser_ic ic) = IC_LEN) as LC by (apply ser_ic_len; exact WC).
    assert (IC_LEN + 36 <= length tx) as TC by (now apply ic_fits).
    assert (Sp : spoken (EConf run0 A q m :: tr) (ic_msg P now x h core ic tx)).
    { unfold ic_msg. eapply sp_ic; [exact In0|exact S|apply commit_type|exact (commit_msg_len P _ _ _ _ _ LC TC)|].
      rewrite (payload_of P _ _ _ _ _ LC TC). rewrite parse_ser_ic by exact WC. exact E1. }
    split.
    2:{ intros mr b Emr Eb. assert (mr = handled (Some p) (Some (ic_msg P now x h core ic tx))) by congruence.
        subst mr. cbn [handled mr_resp] in Eb. assert (b = ic_msg P now x h core ic tx) by congruence. subst b. exact Sp. }
    apply (agent_conf A s s1 tr p x _ _ q run0 m V I G X R Nq I0).
    destruct (po_entry _ _ _ _ Y) as (X1 & X2 & X3).
    destruct (conf_session A q _ now core run0 m ic' ck E2 E3 S In0) as (U1 & U2 & U3).
    constructor; cbn [rh_peer set_handshake set_session p_handshake p_session p_known]; rewrite ?X3.
    + repeat split; assumption.
    + intros h' Q. assert (h' = stored now c (ic_msg P now x h core ic tx) (erased h)) by congruence. subst h'.
      split; [discriminate|]. apply buf_stored; [exact Sp| |].
      * exact (proj1 (wp_hs _ (i_wf P s I p x X) h Hh)).
      * right. split; [exact (commit_msg_len P _ _ _ _ _ LC TC)|apply commit_type].
    + intros h' u Q Q'. assert (u = enter_live P now core Initiator (e_alg q)) by congruence. subst u.
      intros _. exists run0, m, ic', ck. auto.
    + intros u Q'. assert (u = enter_live P now core Initiator (e_alg q)) by congruence. subst u. exact U1.
    + intros k Q. eapply known_ok_mono; [exact Inc|]. exact (po_known _ _ _ _ Y k Q).
  - (* InitConf, answer from the cache *)
    apply Same; [exact G|]. intros mr b Emr Eb.
    assert (mr = handled None (Some (cached_msg P x k))) by congruence. subst mr. cbn [handled mr_resp] in Eb.
    assert (b = cached_msg P x k) by congruence. subst b.
    destruct (ao_peers _ _ _ G p x X) as (q & Nq & Y).
    destruct (po_known _ _ _ _ Y k Hk) as (B & j & g & m & ctr & q' & ck & I1 & S1 & Pa).
    pose proof (wp_known _ (i_wf P s I p x X) k Hk) as Wk. unfold wf_known in Wk.
    assert (length (env_payload ED_LEN (kr_response k)) = ED_LEN) as LE by (apply env_payload_len; exact Wk).
    assert (ED_LEN + 36 <= length (kr_response k)) as TE by (rewrite Wk; unfold env_len; lia).
    unfold cached_msg. eapply sp_ed; [exact I1|exact S1|apply commit_type|exact (commit_msg_len P _ _ _ _ _ LE TE)|].
    rewrite (payload_of P _ _ _ _ _ LE TE). exact Pa.
  - (* InitConf refused *)
    assert (length (ic_biscuit (parse_ic (env_payload IC_LEN rx))) = 116) as Lb by (apply (wf_rx_ic rx L)).
    apply Same; [|discriminate]. eapply failed_ok; [eapply failed_ok|..]; eauto. apply K1.
  - (* InitConf accepted, wrong seal *)
    destruct M0 as [m| | | |]; try contradiction. destruct Hd as (Em & Kn & Id).
    assert (length (ic_biscuit (parse_ic (env_payload IC_LEN rx))) = 116) as Lb by (apply (wf_rx_ic rx L)).
    assert (G0 : agent_ok A s0 tr).
    { destruct HA as [[_ ->]|[_ HA]]; [exact G|]. eapply failed_ok; eauto. }
    assert (I0 : inv P s0) by (apply K0).
    assert (Id0 : ic_ideal A s0 m).
    { destruct HA as [[_ ->]|[_ HA]]; [exact Id|]. intros k0 g0 pt0. rewrite (failed_bk _ _ _ _ _ HA). apply Id. }
    destruct (ic_accept_bno P _ _ _ _ _ _ _ Lb Ac) as (_ & X & Lt & _).
    rewrite Em in *. destruct (ao_bk _ _ _ G0 (nonce_slot (ev (w_biscuit m)))) as [k Hk].
    destruct (conv_done s0 tr A k a m p x bno core C I0 G0 Id0 Hk Ac) as (q & ck & Nq & S & E1 & E2 & E3 & E4).
    set (e0 := EDone A k a m (le_enc 8 0)). exists (e0 :: tr). split.
    { right. exists e0. split; [|reflexivity]. split; [reflexivity|]. split; [reflexivity|].
      split; [eapply key_kept; [exact R|eexists; exact Hk]|]. exists p, q, ck. split; [exact S|]. split; [exact Nq|].
      eapply counts; [exact K0|exact X|eapply st_rel_self; exact R|exact E4|exact Lt|reflexivity]. }
    split; [eapply v_done; eauto|]. split; [|discriminate].
    assert (grows A tr (e0 :: tr)) as Inc by (now apply grows_cons).
    apply (agent_upd A s0 s1 _ p _ _ q (agent_ok_mono _ _ _ _ Inc G0) R Nq).
    destruct (ao_peers _ _ _ G0 p x X) as (q0 & Nq0 & Y). assert (q0 = q) by congruence. subst q0.
    eapply (done_peer A q _ now x bno core k a m ck); [eapply peer_ok_mono; eauto| |exact E1|exact E2].
    split; [now left|exact S].
  - (* InitConf *)
    destruct M0 as [m| | | |]; try contradiction. destruct Hd as (Em & Kn & Id).
    assert (length (ic_biscuit (parse_ic (env_payload IC_LEN rx))) = 116) as Lb by (apply (wf_rx_ic rx L)).
    pose proof (wf_rx_ic rx L) as WI.
    assert (G0 : agent_ok A s0 tr).
    { destruct HA as [[_ ->]|[_ HA]]; [exact G|]. eapply failed_ok; eauto. }
    assert (I0 : inv P s0) by (apply K0).
    assert (Id0 : ic_ideal A s0 m).
    { destruct HA as [[_ ->]|[_ HA]]; [exact Id|]. intros k0 g0 pt0. rewrite (failed_bk _ _ _ _ _ HA). apply Id. }
    destruct (ic_accept_bno P _ _ _ _ _ _ _ Lb Ac) as (_ & X & Lt & Z1 & Z2 & Z3).
    rewrite Em in *. destruct (ao_bk _ _ _ G0 (nonce_slot (ev (w_biscuit m)))) as [k Hk].
    destruct (conv_done s0 tr A k (p_alg x) m p x bno core C I0 G0 Id0 Hk Ac) as (q & ck & Nq & S & E1 & E2 & E3 & E4).
    set (e0 := EDone A k (p_alg x) m (le_enc 8 0)). exists (e0 :: tr). split.
    { right. exists e0. split; [|reflexivity]. split; [reflexivity|]. split; [reflexivity|].
      split; [eapply key_kept; [exact R2|eapply key_kept; [exact R|eexists; exact Hk]]|]. exists p, q, ck. split; [exact S|].
      split; [exact Nq|]. eapply counts; [exact K0|exact X|eapply st_rel_self; exact R2|exact E4|exact Lt|reflexivity]. }
    split; [eapply v_done; eauto|].
    assert (grows A tr (e0 :: tr)) as Inc by (now apply grows_cons).
    assert (De : done_event A (e0 :: tr) q k (p_alg x) m ck) by (split; [now left|exact S]).
    destruct (ao_peers _ _ _ G0 p x X) as (q0 & Nq0 & Y). assert (q0 = q) by congruence. subst q0.
    pose proof (done_peer A q (e0 :: tr) now x bno core k (p_alg x) m ck (peer_ok_mono _ _ _ _ _ Inc Y) De E1 E2) as Yd.
    assert (G1 : agent_ok A s1 (e0 :: tr)).
    { apply (agent_upd A s0 s1 _ p _ _ q (agent_ok_mono _ _ _ _ Inc G0) R Nq). exact Yd. }
    destruct (po_entry _ _ _ _ Y) as (X1 & X2 & X3).
    set (u := ic_session P now x core) in *.
    assert (Rc : rc_of P u = {| ed_sid := ev (w_sidi m); ed_ctr := le_enc 8 0; ed_auth := ev (s_empty (e_alg q) ck (le_enc 8 0)) |}).
    { pose proof (C94_keys P v now core (e_alg q) ck (le_enc 8 0) E1 E2) as (_ & Kt & _).
      unfold rc_of, u, ic_session. rewrite X3. f_equal; [|exact Kt].
      unfold enter_live. cbn [se_sidt]. exact E3. }
    assert (WE : wf_ed (rc_of P u)).
    { apply rc_of_wf. unfold u, ic_session, enter_live, wf_ses. cbn [se_sidm se_sidt].
      rewrite Z1, Z2. split; apply WI. }
    assert (LE : length (ser_ed (rc_of P u)) = ED_LEN) by (apply ser_ed_len; exact WE).
    assert (TE : ED_LEN + 36 <= length tx) by (now apply ed_fits).
    split.
    + apply (agent_upd A s1 s2 _ p _ _ q G1 R2 Nq). destruct Yd as [Y1 Y2 Y3 Y4 Y5].
      constructor; cbn [set_known p_handshake p_session p_known]; auto.
      intros k' Q. assert (k' = new_known P now s rx tx (rc_of P u)) by congruence. subst k'.
      exists A, k, (p_alg x), m, (le_enc 8 0), q, ck. split; [now left|]. split; [exact S|].
      unfold new_known. cbn [kr_response]. unfold env_payload, slice.
      assert (length (firstn 4 tx) = 4) as L4 by (rewrite firstn_length; lia).
      rewrite <- L4 at 1. rewrite skipn_app, skipn_all, Nat.sub_diag. cbn [app skipn].
      rewrite <- LE, firstn_app, firstn_all, Nat.sub_diag, firstn_O, app_nil_r.
      rewrite parse_ser_ed by exact WE. exact Rc.
    + intros mr b Emr Eb.
      match type of Emr with Ok ?t = _ => assert (mr = t) as -> by congruence end.
      cbn [handled mr_resp] in Eb. match type of Eb with Some ?t = _ => assert (b = t) as -> by congruence end.
      eapply sp_ed; [apply (proj1 De)|exact S|apply commit_type|exact (commit_msg_len P _ _ _ _ _ LE TE)|].
      rewrite (payload_of P _ _ _ _ _ LE TE). rewrite parse_ser_ed by exact WE. exact Rc.
  - (* EmptyData refused *)
    apply Same; [|discriminate].
    destruct (ao_peers _ _ _ G p x X) as (q & Nq & Y).
    apply (agent_upd A s _ tr p _ _ q G (with_peer_rel _ _ _ _ X) Nq).
    destruct Y as [Y1 Y2 Y3 Y4 Y5]. constructor; cbn [set_session p_handshake p_session p_known]; auto.
    + intros h' u' Q Q'. assert (u' = set_txnt (le_dec (ed_ctr (parse_ed (env_payload ED_LEN rx)))) u) by congruence. subst u'.
      exact (Y3 h' u Q Hu).
    + intros u' Q'. assert (u' = set_txnt (le_dec (ed_ctr (parse_ed (env_payload ED_LEN rx)))) u) by congruence. subst u'.
      exact (Y4 u Hu).
  - (* EmptyData *)
    destruct M0 as [m| | | |]; try contradiction. destruct Hd as (Ed & Kn & Id).
    destruct (ao_peers _ _ _ G p x X) as (q & Nq & Y).
    destruct (po_conf _ _ _ _ Y h u Hh Hu Hn) as (run0 & m & ic & ck & I0 & S & E1 & E2).
    set (ctr := ed_ctr (parse_ed (env_payload ED_LEN rx))) in *.
    rewrite E2, Ed in D. destruct (Id run0 q m ic ck I0 S pt D) as [pt' Ept].
    exists (EFin run0 A q m ctr d :: tr). split.
    { right. eexists. split; [|reflexivity]. cbn [causes]. split; [reflexivity|]. split; [reflexivity|]. exists p.
      split; [exact Nq|]. split; [now exists x, h|]. eexists. split; [eapply st_rel_self; exact R|reflexivity]. }
    split.
    { eapply v_fin; eauto. rewrite Ept. unfold sdec. rewrite !term_eqb_refl. reflexivity. }
    assert (grows A tr (EFin run0 A q m ctr d :: tr)) as Gr by (now apply grows_cons).
    split.
    2:{ intros mr b Emr Eb. assert (mr = handled None None) by congruence. subst mr. discriminate. }
    apply (agent_upd A s s1 _ p _ _ q (agent_ok_mono _ _ _ _ Gr G) R Nq).
    destruct (peer_ok_mono _ _ _ _ _ Gr Y) as [Y1 Y2 Y3 Y4 Y5].
    constructor; cbn [set_handshake set_session p_handshake p_session p_known]; auto.
    + intros h' Q. discriminate.
    + intros h' u' Q. discriminate.
    + intros u' Q'. assert (u' = set_txnt (le_dec ctr) u) by congruence. subst u'. exact (Y4 u Hu).
  - (* CookieReply *)
    apply Same; [|discriminate].
    destruct (ao_peers _ _ _ G p x X) as (q & Nq & Y).
    apply (agent_upd A s _ tr p _ _ q G (with_peer_rel _ _ _ _ X) Nq).
    destruct Y as [Y1 Y2 Y3 Y4 Y5]. constructor; cbn [set_handshake p_handshake p_session p_known]; auto.
    + intros h' Q. assert (h' = set_hs_cookie {| cs_created := now; cs_value := w |} h) by congruence. subst h'. exact (Y2 h Hh).
    + intros h' u' Q Q'. assert (h' = set_hs_cookie {| cs_created := now; cs_value := w |} h) by congruence. subst h'. exact (Y3 h u' Hh Q').
  - apply Same.
    2:{ intros mr b Emr Eb. assert (mr = handled None None) by congruence. subst mr. discriminate. }
    destruct (ao_peers _ _ _ G p x X) as (q & Nq & Y).
    apply (agent_upd A s _ tr p _ _ q G (with_peer_rel _ _ _ _ X) Nq).
    destruct Y as [Y1 Y2 Y3 Y4 Y5]. constructor; cbn [set_handshake p_handshake p_session p_known]; auto.
    + intros h' Q. assert (h' = set_retry now (hs_tx_count h + 1) (set_hs_cookie {| cs_created := now; cs_value := w |} h)) by congruence. subst h'. exact (Y2 h Hh).
    + intros h' u' Q Q'. assert (h' = set_retry now (hs_tx_count h + 1) (set_hs_cookie {| cs_created := now; cs_value := w |} h)) by congruence. subst h'. exact (Y3 h u' Hh Q').
Qed.


Lemma load_sim A run tr now c rx M0 tx host s s' r :
  cfg_ok -> Sym.valid cfg tr -> inv P s -> agent_ok A s tr -> wf_coins c -> 1100 <= length tx ->
  named A run now c s -> fresh run tr -> heard A s tr rx M0 -> loadstep P now c rx tx host s s' r ->
  exists tr', extends A s s' run None M0 tr tr' /\ Sym.valid cfg tr' /\ agent_ok A s' tr' /\
    forall m b, r = Ok m -> mr_resp m = Some b -> spoken tr' b.
Proof.
  intros C V I G W T N F Hd M.
  destruct M as [e|s' r FT M|s' r FT L CV M|e FT|i l FT L El CV].
  - exists tr. split; [now left|]. split; [exact V|]. split; [exact G|discriminate].
  - eapply msg_sim; eauto.
  - destruct (cs_choice_frame now c s) as (_ & _ & F3 & _ & _ & F4 & _).
    enough (exists tr', extends A (fst (cs_choice now c s)) s' run None M0 tr tr' /\ Sym.valid cfg tr' /\ agent_ok A s' tr' /\
      forall m b, r = Ok m -> mr_resp m = Some b -> spoken tr' b) as (tr' & Q1 & Q2).
    { exists tr'. split; [|exact Q2]. eapply extends_from; [| |exact Q1]; auto. }
    eapply (msg_sim A run tr now c rx M0 tx (fst (cs_choice now c s))); eauto.
    + apply (cs_choice_good P now c s I).
    + now apply agent_choice.
    + now apply named_choice.
    + unfold heard in *. rewrite FT in *. exact Hd.
  - exists tr. split; [now left|]. split; [exact V|]. split; [now apply agent_choice|discriminate].
  - exists tr. split; [now left|]. split; [exact V|]. split; [now apply agent_choice|].
    intros m b Em Eb. match type of Em with Ok ?t = _ => assert (m = t) as -> by congruence end.
    cbn [handled mr_resp] in Eb. match type of Eb with Some ?t = _ => assert (b = t) as -> by congruence end.
    apply sp_cr. reflexivity.
Qed.

(** Dropping things is harmless. *)
Lemma peer_drop_hs A q tr x : peer_ok A q tr x -> peer_ok A q tr (set_handshake None x).
Proof.
  intros [Y1 Y2 Y3 Y4 Y5]. constructor; cbn [set_handshake p_handshake p_session p_known]; auto; discriminate.
Qed.
Lemma peer_drop_ses A q tr x : peer_ok A q tr x -> peer_ok A q tr (set_session None x).
Proof.
  intros [Y1 Y2 Y3 Y4 Y5]. constructor; cbn [set_session p_handshake p_session p_known]; auto; try discriminate.
Qed.
Lemma peer_drop_known A q tr x : peer_ok A q tr x -> peer_ok A q tr (set_known None x).
Proof.
  intros [Y1 Y2 Y3 Y4 Y5]. constructor; cbn [set_known p_handshake p_session p_known]; auto; discriminate.
Qed.
Lemma peer_req A q tr x b : peer_ok A q tr x -> peer_ok A q tr (set_init_req b x).
Proof. intros [Y1 Y2 Y3 Y4 Y5]. constructor; cbn [set_init_req p_handshake p_session p_known]; auto. Qed.
Lemma peer_retried A q tr x now c : peer_ok A q tr x -> peer_ok A q tr (retried now c x).
Proof.
  intros Y. unfold retried. destruct (p_handshake x) as [h|] eqn:E; [|exact Y].
  destruct Y as [Y1 Y2 Y3 Y4 Y5]. constructor; cbn [set_handshake p_handshake p_session p_known]; auto.
  - intros h' Q. match type of Q with Some ?t = _ => assert (h' = t) as -> by congruence end. exact (Y2 h E).
  - intros h' u Q Q'. match type of Q with Some ?t = _ => assert (h' = t) as -> by congruence end. exact (Y3 h u E Q').
Qed.

Lemma poll_sim A run tr now c s s' r : inv P s -> agent_ok A s tr -> named A run now c s ->
  pollstep P now c s s' r -> agent_ok A s' tr.
Proof.
  intros I G N M. destruct (pollstep_pscan P now c s s' r I M) as (s2 & -> & Ps).
  assert (G2 : agent_ok A s2 tr).
  { eapply (pscan_ind_inv P now c (fun s => agent_ok A s tr)); [|exact Ps|].
    - intros t p x t' r' It X K Gt. destruct (ao_peers _ _ _ Gt p x X) as (q & Nq & Y).
      assert (Yd : peer_ok A q tr (drop_hs now x)).
      { unfold drop_hs. destruct (hs_dead now x); [now apply peer_drop_hs|exact Y]. }
      destruct K as [s1 _ R|s1 _ R|s1 _ R|s1 _ R _]; eapply (agent_upd A t s1 tr p _ _ q Gt R Nq).
      + now apply peer_drop_ses.
      + now apply peer_req.
      + now apply peer_retried.
      + unfold drop_known. destruct (known_dead _ _); [now apply peer_drop_known|exact Yd].
    - destruct (erase_keys_frame now c s) as (F1 & F2 & _ & F4 & _).
      apply (agent_frame A s); auto. intros j.
      destruct (nm_erase _ _ _ _ _ N 0) as [k0 H0]; [lia|]. destruct (nm_erase _ _ _ _ _ N 1) as [k1 H1]; [lia|].
      destruct (ao_bk _ _ _ G false) as [j0 J0]. destruct (ao_bk _ _ _ G true) as [j1 J1].
      unfold erase_keys, erase_sec, erase_bk.
      destruct j; repeat match goal with |- context [if ?b then _ else _] => destruct b end;
        cbn [get_bk set_bk set_cs s_bk0 s_bk1 new_store cs_value] in *; eauto. }
  apply (agent_frame A s2); auto. exact (ao_bk _ _ _ G2).
Qed.

Lemma init_sim A run tr now c tx s s' p x f :
  Sym.valid cfg tr -> inv P s -> agent_ok A s tr -> wf_coins c -> 1100 <= length tx ->
  named A run now c s -> fresh run tr -> pe s p = Some x ->
  st_rel s s' p (ins_hs (stored now c (ih_msg P now c s x tx) (ini_hs P now c s x)) x) f ->
  exists q, nth_error (cfg A) p = Some q /\ Sym.valid cfg (EInit run A q :: tr) /\ agent_ok A s' (EInit run A q :: tr) /\
    spoken (EInit run A q :: tr) (ih_msg P now c s x tx).
Proof.
  intros V I G W T N F X R. destruct (ao_peers _ _ _ G p x X) as (q & Nq & Y). exists q. split; [exact Nq|].
  pose proof (C94_init P v s x c run A q (ao_agent _ _ _ G) (po_entry _ _ _ _ Y) (nm_sid _ _ _ _ _ N)
    (nm_kp _ _ _ _ _ N) (nm_enc1 _ _ _ _ _ N)) as E.
  assert (incl tr (EInit run A q :: tr)) as Inc by (intros z; now right).
  assert (In (EInit run A q) (EInit run A q :: tr)) as In0 by now left.
  split; [apply v_init; auto; eapply nth_error_In; eauto|].
  assert (WI : wf_ih (fst (ih_compute P s x c))) by (apply ih_compute_wf; exact W).
  assert (LI : length (ser_ih (fst (ih_compute P s x c))) = IH_LEN) by (apply ser_ih_len; exact WI).
  assert (TI : IH_LEN + 36 <= length tx) by (unfold IH_LEN; lia).
  assert (Sp : spoken (EInit run A q :: tr) (ih_msg P now c s x tx)).
  { unfold ih_msg. eapply sp_ih; [exact In0|apply commit_type|exact (commit_msg_len P _ _ _ _ _ LI TI)|].
    rewrite (payload_of P _ _ _ _ _ LI TI). rewrite parse_ser_ih by exact WI. rewrite E. reflexivity. }
  split; [|exact Sp].
  apply (agent_init A s s' tr p x _ _ q run I G X R Nq).
  assert (peer_ok A q (EInit run A q :: tr) (set_handshake None x)) as Y0.
  { eapply peer_ok_more; [exact Inc|exact (peer_drop_hs _ _ _ _ Y)|]. intros h. discriminate. }
  destruct Y0 as [Y1 _ _ Y4 Y5].
  constructor; cbn [ins_hs set_handshake set_init_req p_handshake p_session p_known]; auto.
  - intros h Q. match type of Q with Some ?t = _ => assert (h = t) as -> by congruence end. split.
    + intros _. exists run. split; [exact In0|]. split; [exists [], tr; split; [reflexivity|intros r []]|]. split.
      { intros (q0 & m0 & [Ec|Ic]); [discriminate Ec|]. exact (proj1 F A q0 (conf_init _ _ _ _ _ _ V Ic)). }
      unfold stored, ini_hs, hs_sid.
      cbn [set_retry set_tx hs_cor hs_epki hs_eski hc_sidi hc_alg hc_ck].
      rewrite E, (nm_sid _ _ _ _ _ N), (nm_kp _ _ _ _ _ N). cbn [fst snd].
      destruct Y1 as (_ & _ & Y1). auto 10.
    + apply buf_stored; [exact Sp| |].
      * unfold ini_hs. cbn [hs_tx_buf]. apply zeros_length.
      * left. split; [exact (commit_msg_len P _ _ _ _ _ LI TI)|apply commit_type].
  - intros h u Q Q'. match type of Q with Some ?t = _ => assert (h = t) as -> by congruence end. discriminate.
Qed.

Lemma spoken_hello tr m b : spoken tr m -> first_type m = Some MInitHello -> first_type b = Some MInitHello ->
  length b = 1060 -> env_payload IH_LEN b = env_payload IH_LEN m -> spoken tr b.
Proof.
  intros [run A p I1 _ _ Pa|run B k bno g m' q rh ck I1 S1 FT|run A p m' ic ck I1 S1 FT|B k g m' ctr q ck I1 S1 FT|FT]
    T1 T2 L Pb; try (rewrite FT in T1; discriminate).
  eapply sp_ih; [exact I1|exact T2|exact L|]. rewrite Pb. exact Pa.
Qed.

(** * All calls *)

(** What the environment of a call has to do. *)
Definition allowed (A run : nat) (tr : list Sym.event) (c : call) (M : smsg) (s : srv) : Prop :=
  System.valid c s /\ named A run (c_now c) (c_coins c) s /\ fresh run tr /\
  match c_op c with
  | OMsg rx _ | OLoad rx _ _ => heard A s tr rx M
  | OAddPeer psk pk a ds =>
      M = SNone /\ exists q, nth_error (cfg A) (length (s_peers s)) = Some q /\ is_entry P v (new_peer psk pk a ds) q
  | _ => M = SNone
  end.
(** The peer a call starts a handshake with. *)
Definition initiated (c : call) : option nat := match c_op c with OInitiate i _ => Some i | _ => None end.

Lemma step_sim A run tr c M0 s s' r :
  cfg_ok -> Sym.valid cfg tr -> inv P s -> agent_ok A s tr -> allowed A run tr c M0 s -> exec P c s = (s', r) ->
  exists tr', extends A s s' run (initiated c) M0 tr tr' /\ Sym.valid cfg tr' /\ agent_ok A s' tr' /\
    forall b, output r = Some b -> spoken tr' b.
Proof.
  intros C V I G (Va & N & F & Al) E.
  assert (Same : agent_ok A s' tr -> (forall b, output r = Some b -> spoken tr b) ->
    exists tr', extends A s s' run (initiated c) M0 tr tr' /\ Sym.valid cfg tr' /\ agent_ok A s' tr' /\ forall b, output r = Some b -> spoken tr' b).
  { intros Q1 Q2. exists tr. split; [now left|]. auto. }
  assert (Msg : forall r0 : res err msg_result,
    r = match r0 with Ok m => Ok (RHandled m) | Err e => Err e | Panic => Panic end ->
    (exists tr', extends A s s' run (initiated c) M0 tr tr' /\ Sym.valid cfg tr' /\ agent_ok A s' tr' /\
       forall m b, r0 = Ok m -> mr_resp m = Some b -> spoken tr' b) ->
    exists tr', extends A s s' run (initiated c) M0 tr tr' /\ Sym.valid cfg tr' /\ agent_ok A s' tr' /\ forall b, output r = Some b -> spoken tr' b).
  { intros r0 -> (tr' & A1 & A2 & A3 & A4). exists tr'. split; auto. split; auto. split; auto.
    intros b Q. destruct r0 as [m|e|]; cbn [output] in Q; try discriminate. eapply A4; eauto. }
  assert (W : wf_coins (c_coins c)) by apply Va.
  pose proof (exec_step P c s s' r I Va E) as St.
  destruct St as [psk pk a ds Eo Hx|psk pk a ds Eo Hx|p tx q Eo Nq Hx|p tx x s1 Eo X Hx R|rx tx s1 r0 Eo M
    |rx tx host s1 r0 Eo M|s1 r0 Eo M|p tx r0 Eo Np|p r0 Eo Np].
  - apply Same; [exact G|discriminate].
  - rewrite Eo in Al. destruct Al as (_ & q & Nq & En). apply Same; [|discriminate].
    destruct G as [[A1 A2] Ps B]. constructor; [split; assumption| |exact B].
    intros i x X. unfold pe in X. cbn [s_peers set_peers] in X.
    destruct (Nat.lt_ge_cases i (length (s_peers s))) as [Li|Li].
    + rewrite nth_error_app1 in X by exact Li. exact (Ps i x X).
    + rewrite nth_error_app2 in X by exact Li. destruct (i - length (s_peers s)) as [|j] eqn:Ej; [|destruct j; discriminate].
      cbn [nth_error] in X. assert (x = new_peer psk pk a ds) by congruence. subst x.
      assert (i = length (s_peers s)) by lia. subst i. exists q. split; [exact Nq|].
      constructor; cbn [new_peer p_handshake p_session p_known]; try discriminate. exact En.
  - apply Same; [exact G|discriminate].
  - destruct Va as [_ Va]. rewrite Eo in Va.
    destruct (init_sim A run tr (c_now c) (c_coins c) tx s s1 p x _ V I G W (proj2 Va) N F X R) as (q & Nq & V' & G' & Sp).
    exists (EInit run A q :: tr). split.
    { right. eexists. split; [|reflexivity]. unfold initiated. rewrite Eo. cbn [causes]. split; [reflexivity|]. split; [reflexivity|].
      exists p. split; [reflexivity|]. split; [exact Nq|]. do 2 eexists. split; [eapply st_rel_self; exact R|]. split; reflexivity. }
    split; [exact V'|]. split; [exact G'|].
    intros b Q. cbn [output] in Q. assert (b = ih_msg P (c_now c) (c_coins c) s x tx) by congruence. subst b. exact Sp.
  - destruct Va as [_ Va]. rewrite Eo in Va, Al. apply (Msg r0 eq_refl). unfold initiated. rewrite Eo. eapply msg_sim; eauto.
  - destruct Va as [_ Va]. rewrite Eo in Va, Al. apply (Msg r0 eq_refl). unfold initiated. rewrite Eo. eapply load_sim; eauto.
  - apply Same; [eapply poll_sim; eauto|discriminate].
  - apply Same; [exact G|]. intros b Q.
    destruct Va as [_ Va]. rewrite Eo in Va. destruct Va as [Lt T].
    unfold exec in E. rewrite Eo in E. apply map_ok_run in E. destruct E as (r1 & E & Er).
    destruct (pe_some s p Lt) as [x X]. destruct (ao_peers _ _ _ G p x X) as (q & Nq & Y).
    destruct (p_handshake x) as [h|] eqn:Hh.
    + destruct (wp_hs _ (i_wf P s I p x X) h Hh) as (W1 & _).
      destruct (po_hs _ _ _ _ Y h Hh) as [_ [K Sp]]. destruct K as [[K Ty]|[K Ty]].
      * rewrite (retransmit_hello P s p x h _ tx W1 T X Hh K eq_refl) in E.
        assert (r1 = Ok (firstn 1044 (firstn 1060 (hs_tx_buf h)) ++
          cookie_of P (cs_value (hs_cookie h)) (firstn 1044 (firstn 1060 (hs_tx_buf h))))) by congruence. subst r1.
        rewrite Er in Q. cbn [output] in Q. rewrite K in Sp. revert Q Sp.
        set (m := firstn 1060 (hs_tx_buf h)) in *. set (ck := cookie_of _ _ _).
        assert (Lm : length m = 1060) by (unfold m; rewrite firstn_length; lia).
        assert (Lc : length ck = 16) by apply cookie_of_len.
        intros Q Sp. assert (b = firstn 1044 m ++ ck) by congruence. subst b.
        assert (Ft : first_type (firstn 1044 m ++ ck) = Some MInitHello).
        { destruct m as [|m0 m']; [discriminate|]. change 1044 with (S 1043). cbn [firstn app first_type]. exact Ty. }
        assert (Lb : length (firstn 1044 m ++ ck) = 1060) by (rewrite app_length, firstn_length; lia).
        assert (Pb : env_payload IH_LEN (firstn 1044 m ++ ck) = env_payload IH_LEN m).
        { assert (forall l : bytes, slice 4 IH_LEN l = slice 4 IH_LEN (firstn 1044 l)) as Sl.
          { intros l. unfold slice. rewrite skipn_firstn_comm, firstn_firstn. reflexivity. }
          unfold env_payload. rewrite Sl, (Sl m). f_equal.
          rewrite firstn_app, firstn_firstn, firstn_length, Lm. 
          change (Nat.min 1044 1044) with 1044. change (1044 - Nat.min 1044 1060) with 0. apply app_nil_r. }
        exact (spoken_hello tr m _ Sp Ty Ft Lb Pb).
      * rewrite (retransmit_conf P s p x h _ tx W1 T X Hh K eq_refl) in E.
        assert (r1 = Ok (firstn 176 (hs_tx_buf h))) by congruence. subst r1.
        rewrite Er in Q. cbn [output] in Q. rewrite K in Sp.
        assert (b = firstn 176 (hs_tx_buf h)) by congruence. subst b. exact Sp.
    + unfold retransmit_handshake, apply_retransmission, get_hs, bind, get_peer in E.
      unfold pe in X. rewrite X, Hh in E. injection E as <-. rewrite Er in Q. discriminate.
  - apply Same; [exact G|]. intros b Q. unfold exec in E. rewrite Eo in E. apply map_ok_run in E.
    destruct E as (r1 & _ & Er). rewrite Er in Q. destruct r1; discriminate.
Qed.

End Link.
