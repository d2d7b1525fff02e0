(** C24: malformed packets are refused.  C25: wire formats.  C26: the mac of envelopes. *)
From Verif Require Import Base ConstTime PConstTime Prims HashDomains Wire Server Protocol Wp Inv Rules Calls PollRules System Trans Spec Transcript Demo PSafety PNotice Forward PRetransmit PCookie.
From Coq Require Strings.String.
Import (notations) Coq.Strings.String.
Local Open Scope m_scope.

(** The documented sizes of messages (papers/whitepaper.md "Messages"; msgs.rs:81-371). *)
Definition documented_len (b : byte) : option nat :=
  match b with
  | x81 => Some 1060      (* InitHello *)
  | x82 => Some 1100      (* RespHello *)
  | x83 => Some 176       (* InitConf *)
  | x84 => Some 64        (* EmptyData *)
  | x86 => Some 1060      (* CookieReply *)
  | _ => None
  end.
Definition well_sized (m : bytes) : Prop :=
  exists b n, is_type b m /\ documented_len b = Some n /\ length m = n.

Lemma well_sized_of m t n : first_type m = Some t -> documented_len (mt_code t) = Some n ->
  length m = n -> well_sized m.
Proof. intros F D L. exists (mt_code t), n. split; auto. now apply is_type_of. Qed.

(** The same server but for the cookie secrets. *)
Definition same_but_secrets (s s' : srv) : Prop :=
  exists k0 k1, s' =
    {| s_sskm := s_sskm s; s_spkm := s_spkm s; s_bctr := s_bctr s; s_bk0 := s_bk0 s;
       s_bk1 := s_bk1 s; s_peers := s_peers s; s_index := s_index s; s_khkey := s_khkey s;
       s_poll_off := s_poll_off s; s_cs0 := k0; s_cs1 := k1 |}.

Lemma cs_choice_secrets now c s : same_but_secrets s (fst (cs_choice now c s)).
Proof.
  unfold cs_choice, same_but_secrets. destruct (_ ++ _); cbn [fst].
  - destruct (negb _); cbn [set_cs]; eexists _, _; reflexivity.
  - exists (s_cs0 s), (s_cs1 s). now destruct s.
Qed.

Lemma msgstep_bad P now c rx tx s s' r : ~ well_sized rx ->
  msgstep P now c rx tx s s' r -> s' = s /\ exists e, r = Err e.
Proof.
  intros B M. destruct M; eauto; exfalso; apply B; eapply well_sized_of; eauto; reflexivity.
Qed.

(** * C24 *)

Theorem C24_malformed_refused : forall P s c rx s' r,
  reachable P s -> valid c s -> received c = Some rx -> ~ well_sized rx ->
  exec P c s = (s', r) ->
  (exists e, r = Err e) /\
  (forall tx, c_op c = OMsg rx tx -> s' = s) /\
  (forall tx host, c_op c = OLoad rx tx host -> ~ is_type x81 rx -> s' = s) /\
  same_but_secrets s s'.
Proof.
  intros P s c rx s' r R V Hr B E. pose proof (reachable_inv P s R) as I.
  assert (same_but_secrets s s) as S0 by (exists (s_cs0 s), (s_cs1 s); now destruct s).
  unfold received in Hr. destruct (c_op c) as [|?|rx0 tx|rx0 tx host| | |] eqn:Eo; try discriminate;
    injection Hr as ->.
  - destruct (exec_msg_step P c rx tx s s' r I V Eo E) as (r0 & M & ->).
    destruct (msgstep_bad _ _ _ _ _ _ _ _ B M) as (-> & e & ->).
    split; [eauto|]. split; [auto|]. split; [|exact S0]. intros ? ? [=].
  - destruct (exec_load_step P c rx tx host s s' r I V Eo E) as (r0 & M & ->).
    assert ((exists e, r0 = Err e) /\ (s' = s \/ is_type x81 rx /\ same_but_secrets s s')) as (He & Hs).
    { destruct M as [e|s1 r F M|s1 r F L _ M|e F|i l F L _ _].
      - eauto.
      - destruct (msgstep_bad _ _ _ _ _ _ _ _ B M) as (-> & e & ->). eauto.
      - exfalso. apply B. eapply well_sized_of; eauto. reflexivity.
      - split; [eauto|]. right. split; [now apply (is_type_of _ MInitHello)|apply cs_choice_secrets].
      - exfalso. apply B. eapply well_sized_of; eauto. reflexivity. }
    destruct He as (e & ->). split; [eauto|]. split; [intros ? [=]|]. split.
    + intros ? ? _ N. now destruct Hs as [->|[? _]].
    + destruct Hs as [->|[_ ?]]; auto.
Qed.
Print Assumptions C24_malformed_refused.

(** * C25 *)

(** A message is the concatenation of fields of the documented sizes. *)
Fixpoint fields (sizes : list nat) (l : list bytes) : Prop :=
  match sizes, l with
  | [], [] => True
  | n :: sizes', f :: l' => length f = n /\ fields sizes' l'
  | _, _ => False
  end.

Theorem C25_init_hello_layout : forall p m,
  length p = 1024 /\ parse_ih p = m <->
  fields [4; 800; 156; 48; 16] [ih_sidi m; ih_epki m; ih_sctr m; ih_pidi_ct m; ih_auth m] /\
  p = concat [ih_sidi m; ih_epki m; ih_sctr m; ih_pidi_ct m; ih_auth m].
Proof.
  intros p m. cbn [concat fields]. rewrite app_nil_r. change (ih_sidi m ++ _) with (ser_ih m). split.
  - intros [L <-]. rewrite ser_parse_ih by exact L. destruct (wf_parse_ih p L) as (A & B & C & D & E). auto 10.
  - intros [(A & B & C & D & E & _) ->]. assert (wf_ih m) as W by (unfold wf_ih; auto).
    split; [now apply ser_ih_len|now apply parse_ser_ih].
Qed.
Theorem C25_resp_hello_layout : forall p m,
  length p = 1064 /\ parse_rh p = m <->
  fields [4; 4; 768; 156; 16; 116] [rh_sidr m; rh_sidi m; rh_ecti m; rh_scti m; rh_auth m; rh_biscuit m] /\
  p = concat [rh_sidr m; rh_sidi m; rh_ecti m; rh_scti m; rh_auth m; rh_biscuit m].
Proof.
  intros p m. cbn [concat fields]. rewrite app_nil_r. change (rh_sidr m ++ _) with (ser_rh m). split.
  - intros [L <-]. rewrite ser_parse_rh by exact L. destruct (wf_parse_rh p L) as (A & B & C & D & E & F). auto 10.
  - intros [(A & B & C & D & E & F & _) ->]. assert (wf_rh m) as W by (unfold wf_rh; auto 10).
    split; [now apply ser_rh_len|now apply parse_ser_rh].
Qed.
Theorem C25_init_conf_layout : forall p m,
  length p = 140 /\ parse_ic p = m <->
  fields [4; 4; 116; 16] [ic_sidi m; ic_sidr m; ic_biscuit m; ic_auth m] /\
  p = concat [ic_sidi m; ic_sidr m; ic_biscuit m; ic_auth m].
Proof.
  intros p m. cbn [concat fields]. rewrite app_nil_r. change (ic_sidi m ++ _) with (ser_ic m). split.
  - intros [L <-]. rewrite ser_parse_ic by exact L. destruct (wf_parse_ic p L) as (A & B & C & D). auto 10.
  - intros [(A & B & C & D & _) ->]. assert (wf_ic m) as W by (unfold wf_ic; auto).
    split; [now apply ser_ic_len|now apply parse_ser_ic].
Qed.
Theorem C25_empty_data_layout : forall p m,
  length p = 28 /\ parse_ed p = m <->
  fields [4; 8; 16] [ed_sid m; ed_ctr m; ed_auth m] /\
  p = concat [ed_sid m; ed_ctr m; ed_auth m].
Proof.
  intros p m. cbn [concat fields]. rewrite app_nil_r. change (ed_sid m ++ _) with (ser_ed m). split.
  - intros [L <-]. rewrite ser_parse_ed by exact L. destruct (wf_parse_ed p L) as (A & B & C). auto 10.
  - intros [(A & B & C & _) ->]. assert (wf_ed m) as W by (unfold wf_ed; auto).
    split; [now apply ser_ed_len|now apply parse_ser_ed].
Qed.
Theorem C25_biscuit_layout : forall p m,
  length p = 76 /\ parse_bi p = m <->
  fields [32; 12; 32] [bi_pidi m; bi_no m; bi_ck m] /\
  p = concat [bi_pidi m; bi_no m; bi_ck m].
Proof.
  intros p m. cbn [concat fields]. rewrite app_nil_r. change (bi_pidi m ++ _) with (ser_bi m). split.
  - intros [L <-]. rewrite ser_parse_bi by exact L. destruct (wf_parse_bi p L) as (A & B & C). auto 10.
  - intros [(A & B & C & _) ->]. assert (wf_bi m) as W by (unfold wf_bi; auto).
    split; [now apply ser_bi_len|now apply parse_ser_bi].
Qed.
Theorem C25_cookie_reply_layout : forall p m,
  length p = 1060 /\ parse_cr p = m <->
  fields [1; 3; 4; 56; 996] [cr_type m; cr_reserved m; cr_sid m; cr_cookie m; cr_padding m] /\
  p = concat [cr_type m; cr_reserved m; cr_sid m; cr_cookie m; cr_padding m].
Proof.
  intros p m. cbn [concat fields]. rewrite app_nil_r. change (cr_type m ++ _) with (ser_cr m). split.
  - intros [L <-]. rewrite ser_parse_cr by exact L. destruct (wf_parse_cr p L) as (A & B & C & D & E). auto 10.
  - intros [(A & B & C & D & E & _) ->]. assert (wf_cr m) as W by (unfold wf_cr; auto).
    split; [now apply ser_cr_len|now apply parse_ser_cr].
Qed.
(** Serialising is the other direction. *)
Theorem C25_serialise : 
  (forall m, ser_ih m = concat [ih_sidi m; ih_epki m; ih_sctr m; ih_pidi_ct m; ih_auth m]) /\
  (forall m, ser_rh m = concat [rh_sidr m; rh_sidi m; rh_ecti m; rh_scti m; rh_auth m; rh_biscuit m]) /\
  (forall m, ser_ic m = concat [ic_sidi m; ic_sidr m; ic_biscuit m; ic_auth m]) /\
  (forall m, ser_ed m = concat [ed_sid m; ed_ctr m; ed_auth m]) /\
  (forall m, ser_bi m = concat [bi_pidi m; bi_no m; bi_ck m]) /\
  (forall m, ser_cr m = concat [cr_type m; cr_reserved m; cr_sid m; cr_cookie m; cr_padding m]).
Proof. cbn [concat]. repeat split; intros m; rewrite app_nil_r; reflexivity. Qed.
(** Exactly the five documented bytes are message types, and codes convert both ways. *)
Theorem C25_type_codes : forall b t,
  (mt_of b = Some t <-> b = mt_code t) /\ (mt_of b = None <-> documented_len b = None).
Proof.
  intros b t. split; split.
  - intros H. symmetry. now apply mt_code_of.
  - intros ->. apply mt_of_code.
  - destruct b; cbn; auto; discriminate.
  - destruct b; cbn; auto; discriminate.
Qed.
Print Assumptions C25_init_hello_layout.
Print Assumptions C25_resp_hello_layout.
Print Assumptions C25_init_conf_layout.
Print Assumptions C25_empty_data_layout.
Print Assumptions C25_biscuit_layout.
Print Assumptions C25_cookie_reply_layout.
Print Assumptions C25_serialise.
Print Assumptions C25_type_codes.

(** A call hands out a message to be sent. *)
Definition handed_out (r : res err outcome) (m : bytes) : Prop :=
  r = Ok (RSent m) \/ replied r m.

(** The mac field (16 bytes, before the 16 bytes of the cookie) authenticates everything
    before it to the server with public key [pk], in hash version [a]. *)
Definition sealed (P : prims) (a : halg) (pk m : bytes) : Prop :=
  slice (length m - 32) 16 m =
  firstn 16 (hashed P a (domain P a ["mac"%string]) [pk; firstn (length m - 32) m]).

(** The peer a call sends to, as far as the call and its result name it. *)
Definition addressed (c : call) (r : res err outcome) (p : nat) : Prop :=
  match c_op c with
  | OInitiate q _ | ORetransmit q _ => q = p
  | _ => forall q, exchanged r q -> q = p
  end.


Section Sealed.
Context (P : prims).

Lemma sealed_prefix m m' a pk : 32 <= length m -> length m' = length m ->
  firstn (length m - 16) m' = firstn (length m - 16) m -> sealed P a pk m -> sealed P a pk m'.
Proof.
  intros G L E S. unfold sealed in *. rewrite L.
  assert (forall k : bytes, slice (length m - 32) 16 k =
            slice (length m - 32) 16 (firstn (length m - 16) k)) as K1.
  { intros k. unfold slice. rewrite skipn_firstn_comm, firstn_firstn. f_equal. lia. }
  assert (forall k : bytes, firstn (length m - 32) k =
            firstn (length m - 32) (firstn (length m - 16) k)) as K2.
  { intros k. rewrite firstn_firstn. f_equal. lia. }
  rewrite K1, K2, E, <- K1, <- K2. exact S.
Qed.

Lemma commit_sealed x t n payload tx :
  length payload = n -> n + 36 <= length tx ->
  sealed P (p_alg x) (p_spkt x) (commit_msg P x t n payload tx).
Proof.
  intros L T. unfold sealed. rewrite (commit_msg_len P x t n payload tx L T).
  replace (n + 36 - 32) with (4 + n) by lia.
  rewrite (commit_upto_mac P x t n payload tx L T).
  assert (slice (4 + n) 16 (commit_msg P x t n payload tx) =
          slice (4 + n) 16 (firstn (20 + n) (commit_msg P x t n payload tx))) as ->.
  { unfold slice. rewrite skipn_firstn_comm, firstn_firstn. f_equal. lia. }
  rewrite (commit_upto_cookie P x t n payload tx L T).
  assert (length (body t payload tx) = 4 + n) as Lb by (apply body_len; lia).
  rewrite slice_skip by lia. rewrite Lb, Nat.sub_diag. unfold slice. rewrite skipn_O.
  rewrite firstn_all2 by (rewrite mac_of_len; lia). reflexivity.
Qed.

Lemma commit_sized x t n payload tx :
  length payload = n -> n + 36 <= length tx -> documented_len (mt_code t) = Some (n + 36) ->
  well_sized (commit_msg P x t n payload tx).
Proof.
  intros L T D. exists (mt_code t), (n + 36). split; [now apply commit_type|]. split; auto.
  now apply commit_msg_len.
Qed.

Lemma mac_checks s a n m : length m = n + 36 -> sealed P a (s_spkm s) m ->
  check_seal P s a n m = true.
Proof.
  intros L S. unfold check_seal. apply memcmp_spec. unfold sealed in S. rewrite L in S.
  replace (n + 36 - 32) with (4 + n) in S by lia. exact S.
Qed.
Lemma mac_checked s a n m : length m = n + 36 -> check_seal P s a n m = true ->
  sealed P a (s_spkm s) m.
Proof.
  intros L S. unfold check_seal in S. apply memcmp_spec in S. unfold sealed. rewrite L.
  replace (n + 36 - 32) with (4 + n) by lia. exact S.
Qed.

(** What a reply looks like. *)
Definition proper (s : srv) (m : bytes) (o : option nat) : Prop :=
  well_sized m /\
  (is_type x86 m \/ exists p x, nth_error (s_peers s) p = Some x /\
     sealed P (p_alg x) (p_spkt x) m /\ forall q, o = Some q -> q = p).

Lemma commit_proper s p x y t n payload tx o : pe s p = Some y ->
  p_alg x = p_alg y -> p_spkt x = p_spkt y -> (forall q, o = Some q -> q = p) ->
  length payload = n -> n + 36 <= length tx -> documented_len (mt_code t) = Some (n + 36) ->
  proper s (commit_msg P x t n payload tx) o.
Proof.
  intros Y Ea Ep Ho L T D. split; [now apply commit_sized|]. right. exists p, y. split; [exact Y|].
  split; [|exact Ho]. rewrite <- Ea, <- Ep. now apply commit_sealed.
Qed.

Lemma good_back s s' p x' : good P s s' -> pe s' p = Some x' ->
  exists x, pe s p = Some x /\ peer_evo x x'.
Proof.
  intros G X. assert (p < npeers s) as Lt.
  { rewrite <- (g_n _ _ _ G). unfold npeers. apply nth_error_Some. unfold pe in X. now rewrite X. }
  destruct (pe_some s p Lt) as [x Hx]. exists x. split; auto.
  destruct (ev_pe _ _ (g_evo _ _ _ G) p x Hx) as (x1 & X1 & E). congruence.
Qed.

Lemma msgstep_proper now c rx tx s s' o m : inv P s -> wf_coins c -> 1100 <= length tx ->
  msgstep P now c rx tx s s' (Ok (handled o (Some m))) -> proper s m o.
Proof.
  intros I W T M. remember (Ok (handled o (Some m))) as r eqn:Er.
  destruct M as [| |p x ck F L Ei Es| |p x h ic core s1 F L Hi X Hh Hs Hn Hc Es R
    |p x k F L Ek X Hk Em Es| | |s0 p x bno core s1 s2 F L Ek Ha K0 K1 Hi Hf R Es R2| | | | ];
    try discriminate; injection Er as <- <-.
  - unfold rh_msg. assert (wf_ih (parse_ih (env_payload IH_LEN rx))) as WF by now apply wf_rx_ih.
    eapply commit_proper with (p := p) (y := x);
      [eapply ih_try_pe; exact Ei|reflexivity|reflexivity|discriminate| |exact T|reflexivity].
    apply ser_rh_len, rh_of_wf; [exact W|apply WF|apply (i_bctr P s I)].
  - unfold ic_msg. pose proof (wf_rx_rh rx L) as WF.
    eapply commit_proper with (p := p) (y := x);
      [exact X|reflexivity|reflexivity|now intros q [= ->]| |unfold IC_LEN; lia|reflexivity].
    apply ser_ic_len. eapply wf_ic_of; eauto.
  - unfold cached_msg. pose proof (wp_known _ (i_wf P s I p x X) k Hk) as WF. unfold wf_known in WF.
    change (env_len ED_LEN) with 64 in WF.
    eapply commit_proper with (p := p) (y := x);
      [exact X|reflexivity|reflexivity|discriminate| |unfold ED_LEN; lia|reflexivity].
    apply slice_length. unfold ED_LEN. lia.
  - assert (inv P s0) as I0 by apply K0.
    pose proof (ic_accept_pe P s0 _ _ p x bno core I0 Hi) as X.
    destruct K0 as [G0 _]. destruct (good_back _ _ _ _ G0 X) as (y & Y & Ev).
    assert (wf_ses (ic_session P now x core)) as WS.
    { destruct (wp_ses _ (i_wf P s1 (g_inv _ _ _ (proj1 K1)) p _ (st_rel_self _ _ _ _ _ R)) _ eq_refl)
        as [W1 W2]. split; auto. }
    eapply commit_proper with (p := p) (y := y);
      [exact Y|apply (pv_alg _ _ Ev)|apply (pv_spkt _ _ Ev)|now intros q [= ->]| |unfold ED_LEN; lia
      |reflexivity].
    now apply ser_ed_len, rc_of_wf.
Qed.

Lemma loadstep_proper now c rx tx host s s' o m : inv P s -> wf_coins c -> 1100 <= length tx ->
  loadstep P now c rx tx host s s' (Ok (handled o (Some m))) -> proper s m o.
Proof.
  intros I W T M. remember (Ok (handled o (Some m))) as r eqn:Er.
  destruct M as [e|s1 r F M|s1 r F L Hc M|e F|i l F L El Hc]; try discriminate.
  - subst r. eapply msgstep_proper; eauto.
  - subst r. apply msgstep_proper in M; auto; [|apply cs_choice_good, I].
    destruct M as [A B]. split; [exact A|].
    destruct B as [B|(p & x & X & B)]; [now left|right]. exists p, x. split; [|exact B].
    now destruct (cs_choice_frame now c s) as (_ & _ & _ & _ & _ & <- & _).
  - injection Er as _ <-.
    match goal with |- proper _ (ser_cr ?k) _ => set (cr := k) end.
    assert (is_type x86 (ser_cr cr)) as Ty by reflexivity.
    split; [|now left]. exists x86, 1060. split; [exact Ty|]. split; [reflexivity|].
    destruct W as (W1 & W2 & W3 & W4 & W5 & _). apply ser_cr_len. unfold wf_cr, cr.
    cbn [cr_type cr_reserved cr_sid cr_cookie cr_padding].
    split; [reflexivity|]. split; [apply slice_length; lia|].
    split; [apply (wf_rx_ih rx L)|]. split; [|exact W5].
    rewrite xenc_len by exact W4. unfold cookie_value_for. rewrite firstn_length, hmix_len. reflexivity.
Qed.

Definition proper_call (c : call) (s : srv) (r : res err outcome) (m : bytes) : Prop :=
  well_sized m /\
  (is_type x86 m \/ exists p x, nth_error (s_peers s) p = Some x /\
     sealed P (p_alg x) (p_spkt x) m /\ addressed c r p).

Lemma fresh_proper c s s' r m : inv P s -> valid c s -> exec P c s = (s', r) -> handed_out r m ->
  (forall p tx, c_op c <> ORetransmit p tx) -> proper_call c s r m.
Proof.
  intros I V E H N. pose proof (exec_step P c s s' r I V E) as S. destruct V as [W V].
  destruct S as [psk pk a ds Eo|psk pk a ds Eo|p tx q Eo|p tx x s1 Eo X Hc R
    |rx tx s1 r Eo M|rx tx host s1 r Eo M|s1 r Eo|p tx r Eo|p r Eo].
  - destruct H as [H|[o H]]; discriminate.
  - destruct H as [H|[o H]]; discriminate.
  - destruct H as [H|[o H]]; discriminate.
  - destruct H as [H|[o H]]; [|discriminate]. injection H as <-. rewrite Eo in V. destruct V as [_ T].
    unfold ih_msg.
    destruct (commit_proper s p (ins_hs (ini_hs P (c_now c) (c_coins c) s x) x) x MInitHello IH_LEN
      (ser_ih (fst (ih_compute P s x (c_coins c)))) tx (Some p) X eq_refl eq_refl) as [A B].
    + now intros q [= ->].
    + apply ser_ih_len, ih_compute_wf, W.
    + unfold IH_LEN. lia.
    + reflexivity.
    + split; [exact A|]. destruct B as [B|(q & y & Y & Sl & Q)]; [now left|right].
      exists q, y. split; [exact Y|]. split; [exact Sl|]. unfold addressed. rewrite Eo.
      now apply Q.
  - rewrite Eo in V. destruct H as [H|[o H]]; [destruct r; discriminate|].
    destruct r as [r|e|]; try discriminate. injection H as ->.
    destruct (msgstep_proper _ _ _ _ _ _ _ _ I W V M) as [A B]. split; [exact A|].
    destruct B as [B|(q & y & Y & Sl & Q)]; [now left|right].
    exists q, y. split; [exact Y|]. split; [exact Sl|]. unfold addressed. rewrite Eo.
    intros q' (m' & Eq). injection Eq as Eq _. now apply Q.
  - rewrite Eo in V. destruct H as [H|[o H]]; [destruct r; discriminate|].
    destruct r as [r|e|]; try discriminate. injection H as ->.
    destruct (loadstep_proper _ _ _ _ _ _ _ _ _ I W V M) as [A B]. split; [exact A|].
    destruct B as [B|(q & y & Y & Sl & Q)]; [now left|right].
    exists q, y. split; [exact Y|]. split; [exact Sl|]. unfold addressed. rewrite Eo.
    intros q' (m' & Eq). injection Eq as Eq _. now apply Q.
  - destruct H as [H|[o H]]; discriminate.
  - exfalso. now apply (N p tx).
  - unfold exec in E. rewrite Eo in E. apply map_ok_run in E. destruct E as (r0 & _ & ->).
    destruct H as [H|[o H]]; destruct r0; discriminate.
Qed.

(** The last message sent to a peer was handed out by one of the calls. *)
Lemma last_sent_from_in p h acc m : last_sent_from p acc h = Some m ->
  acc = Some m \/ exists h1 c r h2, h = h1 ++ (c, r) :: h2 /\ sends p c r = Some m.
Proof.
  revert acc. induction h as [|[c r] h IH]; intros acc; cbn [last_sent_from].
  - now left.
  - intros H. destruct (IH _ H) as [E|(h1 & c1 & r1 & h2 & -> & E)].
    + destruct (sends p c r) as [m'|] eqn:Es.
      * right. exists [], c, r, h. split; [reflexivity|]. congruence.
      * now left.
    + right. exists ((c, r) :: h1), c1, r1, h2. split; auto.
Qed.

Lemma run_split s h1 x h2 s' : run P s (h1 ++ x :: h2) s' ->
  exists s1 s2, run P s h1 s1 /\ valid (fst x) s1 /\ exec P (fst x) s1 = (s2, snd x) /\ run P s2 h2 s'.
Proof.
  revert s. induction h1 as [|y h1 IH]; intros s R; cbn [app] in R; inversion R; subst.
  - exists s, s1. split; [constructor|]. auto.
  - match goal with H : run P _ (h1 ++ _) _ |- _ => destruct (IH _ H) as (t1 & t2 & A & B) end.
    exists t1, t2. split; [econstructor; eauto|exact B].
Qed.

Lemma run_evo s h s' : inv P s -> run P s h s' -> evo s s'.
Proof.
  intros I R. induction R as [s|s c r s1 h s2 V E R IH]; [apply evo_refl|].
  pose proof (exec_grows P c s I V) as G. unfold wp in G. rewrite E in G. cbn [fst snd] in G.
  destruct G as ((I1 & E1) & _). eapply evo_trans; [exact E1|]. now apply IH.
Qed.

Lemma out_proper s0 h s c s' r m : initial s0 -> run P s0 h s -> valid c s ->
  exec P c s = (s', r) -> handed_out r m -> proper_call c s r m.
Proof.
  intros I0 R V E H. pose proof (run_inv P _ _ _ (initial_inv P _ I0) R) as I.
  assert ((exists p tx, c_op c = ORetransmit p tx) \/ forall p tx, c_op c <> ORetransmit p tx) as D
    by (destruct (c_op c); try (right; discriminate); left; eauto).
  destruct D as [(p & tx & Eo)|N]; [|now apply (fresh_proper c s s')].
  destruct (C48_retransmission_repeats P s0 h s c p tx s' r I0 R V Eo E) as [_ D].
  destruct D as [(m0 & Em & D)|(x & _ & _ & e & ->)]; [|destruct H as [H|[o H]]; discriminate].
  destruct (last_sent_from_in p h None m0 Em) as [?|(h1 & c1 & r1 & h2 & -> & Es)]; [discriminate|].
  destruct (run_split _ _ _ _ _ R) as (t1 & t2 & R1 & V1 & E1 & R2). cbn [fst snd] in V1, E1.
  pose proof (run_inv P _ _ _ (initial_inv P _ I0) R1) as I1.
  assert (handed_out r1 m0 /\ (forall q tx, c_op c1 <> ORetransmit q tx) /\
          (forall q, addressed c1 r1 q -> q = p)) as (H1 & N1 & A1).
  { unfold sends in Es. unfold addressed, exchanged.
    destruct (c_op c1) as [|q tx1|rx tx1|rx tx1 host| | |]; try discriminate;
      destruct r1 as [[|m1|[[q'|] [m1|]]| |]| |]; try discriminate.
    - destruct (Nat.eqb_spec q p) as [->|]; [|discriminate]. injection Es as ->.
      split; [now left|]. split; [discriminate|]. now intros q.
    - destruct (Nat.eqb_spec q' p) as [->|]; [|discriminate].
      assert (m1 = m0) as -> by (destruct m1 as [|[] ?]; try discriminate; now injection Es).
      split; [right; eexists; reflexivity|]. split; [discriminate|]. intros q Q. symmetry. apply Q. eauto.
    - destruct (Nat.eqb_spec q' p) as [->|]; [|discriminate].
      assert (m1 = m0) as -> by (destruct m1 as [|[] ?]; try discriminate; now injection Es).
      split; [right; eexists; reflexivity|]. split; [discriminate|]. intros q Q. symmetry. apply Q. eauto. }
  destruct (fresh_proper c1 t1 t2 r1 m0 I1 V1 E1 H1 N1) as [Wz B].
  destruct B as [B|(q & y & Y & Sl & Ad)].
  { exfalso. unfold is_type in *.
    destruct D as [(Ty & _)|(Ty & _)]; rewrite B in Ty; discriminate. }
  apply A1 in Ad. subst q.
  assert (evo t1 s) as Ev.
  { eapply run_evo; [exact I1|]. econstructor; [exact V1|exact E1|exact R2]. }
  destruct (ev_pe _ _ Ev p y Y) as (y' & Y' & Pe).
  assert (well_sized m /\ sealed P (p_alg y) (p_spkt y) m) as [Wm Sm].
  { destruct D as [(Ty & L & ->)|(Ty & L & k & Lk & ->)];
      (destruct H as [H|[o H]]; [|discriminate]); injection H as <-; auto.
    assert (length (firstn 1044 m0 ++ k) = 1060) as L1
      by (rewrite app_length, firstn_length, L, Lk; lia).
    split.
    - exists x81, 1060. split; [|split; [reflexivity|exact L1]].
      unfold is_type in *. destruct m0; [discriminate|]. exact Ty.
    - eapply (sealed_prefix m0); [rewrite L; lia|exact (eq_trans L1 (eq_sym L))| |exact Sl].
      rewrite L. change (1060 - 16) with 1044. now apply firstn_1044. }
  split; [exact Wm|]. right. exists p, y'. split; [exact Y'|].
  rewrite (pv_alg _ _ Pe), (pv_spkt _ _ Pe). split; [exact Sm|]. unfold addressed. now rewrite Eo.
Qed.
End Sealed.

(** Every message a server hands out, in any history, has a documented type and exactly the
    documented size of that type. *)
Theorem C25_sent_messages_well_sized : forall P s0 h s c s' r m,
  initial s0 -> run P s0 h s -> valid c s -> exec P c s = (s', r) -> handed_out r m ->
  well_sized m.
Proof. intros P s0 h s c s' r m I0 R V E H. now destruct (out_proper P s0 h s c s' r m I0 R V E H). Qed.
Print Assumptions C25_sent_messages_well_sized.

(** * C26 *)

(** Every message handed out, except a CookieReply, is sealed for a peer of the server, in
    the hash version of that peer; where the call names the peer, for that one. *)
Theorem C26_sent_messages_sealed : forall P s0 h s c s' r m,
  initial s0 -> run P s0 h s -> valid c s -> exec P c s = (s', r) -> handed_out r m ->
  ~ is_type x86 m ->
  exists p x, nth_error (s_peers s) p = Some x /\ addressed c r p /\
    sealed P (p_alg x) (p_spkt x) m.
Proof.
  intros P s0 h s c s' r m I0 R V E H N.
  destruct (out_proper P s0 h s c s' r m I0 R V E H) as [_ [B|(p & x & X & S & A)]]; [contradiction|].
  exists p, x. auto.
Qed.
Print Assumptions C26_sent_messages_sealed.

(** The check of the receiver: it accepts such a message at the server whose public key the
    message was sealed for, and accepts nothing else. *)
Theorem C26_check : forall P s a n m, length m = n + 36 ->
  (check_seal P s a n m = true <-> sealed P a (s_spkm s) m).
Proof. intros P s a n m L. split; [now apply mac_checked|now apply mac_checks]. Qed.
Print Assumptions C26_check.

Theorem C26_sent_passes_check : forall P s0 h s c s' r m sB,
  initial s0 -> run P s0 h s -> valid c s -> exec P c s = (s', r) -> handed_out r m ->
  ~ is_type x86 m ->
  exists p x, nth_error (s_peers s) p = Some x /\ addressed c r p /\
    (s_spkm sB = p_spkt x -> check_seal P sB (p_alg x) (length m - 36) m = true).
Proof.
  intros P s0 h s c s' r m sB I0 R V E H N.
  destruct (C26_sent_messages_sealed P s0 h s c s' r m I0 R V E H N) as (p & x & X & A & S).
  exists p, x. split; auto. split; auto. intros K. apply mac_checks; [|now rewrite K].
  destruct (C25_sent_messages_well_sized P s0 h s c s' r m I0 R V E H) as (b & n & _ & D & <-).
  destruct b; try discriminate; injection D as D; rewrite <- D; reflexivity.
Qed.
Print Assumptions C26_sent_passes_check.

Lemma msgstep_sealed P now c rx tx s s' m : msgstep P now c rx tx s s' (Ok m) ->
  is_type x86 rx \/ exists p x, pe s p = Some x /\ sealed P (p_alg x) (s_spkm s) rx.
Proof.
  intros M. remember (Ok m) as r eqn:Er.
  destruct M as [| |p x ck F L Ei Es| |p x h ic core s1 F L Hi X Hh Hs Hn Hc Es R
    |p x k F L Ek X Hk Em Es| | |s0 p x bno core s1 s2 F L Ek Ha K0 K1 Hi Hf R Es R2
    | |p x h u s1 pt F L Hi X Hh Hs Hn Hu Es | | p x h mac v F]; try discriminate.
  - right. exists p, x. split; [now apply ih_try_pe in Ei as [? _]|].
    now apply (mac_checked P s (p_alg x) IH_LEN).
  - right. exists p, x. split; auto. now apply (mac_checked P s (p_alg x) RH_LEN).
  - right. exists p, x. split; auto. now apply (mac_checked P s (p_alg x) IC_LEN).
  - right. pose proof (ic_accept_pe P s0 _ _ p x bno core (g_inv _ _ _ (proj1 K0)) Hi) as X.
    destruct (good_back P _ _ _ _ (proj1 K0) X) as (y & Y & Ev). exists p, y. split; auto.
    rewrite <- (pv_alg _ _ Ev). now apply (mac_checked P s (p_alg x) IC_LEN).
  - right. exists p, x. split; auto. now apply (mac_checked P s (p_alg x) ED_LEN).
  - left. now apply (is_type_of _ MCookieReply).
Qed.

(** Nothing is accepted whose mac field is not the mac of what precedes it under the key of
    the receiving server, in the hash version of one of its peers.  CookieReply messages have
    no mac, and under load a CookieReply is sent before the mac is checked. *)
Theorem C26_accepted_messages_sealed : forall P s c rx s' m,
  reachable P s -> valid c s -> received c = Some rx ->
  exec P c s = (s', Ok (RHandled m)) ->
  ~ is_type x86 rx -> (forall k, mr_resp m = Some k -> ~ is_type x86 k) ->
  exists p x, nth_error (s_peers s) p = Some x /\ sealed P (p_alg x) (s_spkm s) rx.
Proof.
  intros P s c rx s' m R V Hr E N Nc. pose proof (reachable_inv P s R) as I.
  unfold received in Hr. destruct (c_op c) as [|?|rx0 tx|rx0 tx host| | |] eqn:Eo; try discriminate;
    injection Hr as ->.
  - apply (exec_msg_ok P c rx tx s s' m I V Eo) in E.
    now destruct (msgstep_sealed P _ _ _ _ _ _ _ E).
  - apply (exec_load_ok P c rx tx host s s' m I V Eo) in E.
    remember (Ok m) as r eqn:Er.
    destruct E as [e|s1 r F M|s1 r F L Hc M|e F|i l F L El Hc]; try discriminate; subst.
    + now destruct (msgstep_sealed P _ _ _ _ _ _ _ M).
    + destruct (msgstep_sealed P _ _ _ _ _ _ _ M) as [?|(p & x & X & S)]; [contradiction|].
      destruct (cs_choice_frame (c_now c) (c_coins c) s) as (_ & EP & _ & _ & _ & EQ & _).
      unfold pe in X. rewrite EP in S. rewrite EQ in X. eauto.
    + exfalso. injection Er as <-. eapply Nc; [reflexivity|]. reflexivity.
Qed.
Print Assumptions C26_accepted_messages_sealed.

(** The last 16 bytes, the cookie field, play no part: two messages that differ only there
    are treated alike by [handle_msg], whatever the state. *)
Lemma bind_ext {A B} (m : M A) (f g : A -> M B) s :
  (forall a s', f a s' = g a s') -> bind m f s = bind m g s.
Proof. intros H. unfold bind. destruct (m s) as [s' [a|e|]]; auto. Qed.

Theorem C26_cookie_field_ignored : forall P s now coins rx rx' tx,
  36 <= length rx -> length rx' = length rx ->
  firstn (length rx - 16) rx' = firstn (length rx - 16) rx ->
  ~ is_type x86 rx ->
  exec P {| c_now := now; c_coins := coins; c_op := OMsg rx' tx |} s =
  exec P {| c_now := now; c_coins := coins; c_op := OMsg rx tx |} s.
Proof.
  intros P s now coins rx rx' tx Bg L E N. unfold exec. cbn [c_op c_now c_coins].
  enough (handle_msg P now coins rx' tx s = handle_msg P now coins rx tx s) as Em
    by (unfold map_ok, bind; now rewrite Em).
  assert (forall n, length rx = env_len n ->
     env_payload n rx' = env_payload n rx /\ env_mac n rx' = env_mac n rx /\
     env_upto_mac n rx' = env_upto_mac n rx /\ env_upto_cookie n rx' = env_upto_cookie n rx) as K.
  { intros n Ln. unfold env_len in Ln. rewrite Ln in E. replace (n + 36 - 16) with (20 + n) in E by lia.
    assert (forall o k, o + k <= 20 + n -> slice o k rx' = slice o k rx) as Sl.
    { intros o k B.
      assert (forall l : bytes, slice o k l = slice o k (firstn (20 + n) l)) as K.
      { intros l. unfold slice. rewrite skipn_firstn_comm, firstn_firstn. f_equal. lia. }
      rewrite K, E, <- K. reflexivity. }
    unfold env_payload, env_mac, env_upto_mac, env_upto_cookie.
    split; [apply Sl; lia|]. split; [apply Sl; lia|]. split; [|exact E].
    rewrite <- !slice_0. apply Sl. lia. }
  unfold handle_msg.
  destruct rx as [|b l] eqn:Erx; [cbn in Bg; lia|]. rewrite <- Erx in *.
  destruct rx' as [|b' l'] eqn:Erx'; [rewrite <- L in Bg; cbn in Bg; lia|]. rewrite <- Erx' in *.
  assert (b' = b) as ->.
  { destruct (length rx - 16) as [|k] eqn:Ek; [lia|]. rewrite Erx, Erx' in E. cbn [firstn] in E. congruence. }
  destruct (mt_of b) as [t|] eqn:Et; [|reflexivity].
  destruct (Nat.ltb _ _); [reflexivity|].
  assert (forall n, length rx = env_len n -> forall s a, check_seal P s a n rx' = check_seal P s a n rx) as CS.
  { intros n Ln s1 a. destruct (K n Ln) as (_ & A & B & _). unfold check_seal. now rewrite A, B. }
  destruct t.
  - unfold msg_init_hello. rewrite L.
    destruct (Nat.eqb_spec (length rx) (env_len IH_LEN)) as [Ln|_]; [|reflexivity].
    destruct (K _ Ln) as (-> & _). specialize (CS _ Ln).
    apply bind_ext; intros _ s1. apply bind_ext; intros [[p rh] a] s2.
    apply bind_ext; intros _ s3. apply bind_ext; intros s4 s5. now rewrite CS.
  - unfold msg_resp_hello. rewrite L.
    destruct (Nat.eqb_spec (length rx) (env_len RH_LEN)) as [Ln|_]; [|reflexivity].
    destruct (K _ Ln) as (-> & _). specialize (CS _ Ln).
    apply bind_ext; intros _ s1. apply bind_ext; intros [p ic] s2.
    apply bind_ext; intros x s3. apply bind_ext; intros s4 s5. now rewrite CS.
  - unfold msg_init_conf. rewrite L.
    destruct (Nat.eqb_spec (length rx) (env_len IC_LEN)) as [Ln|_]; [|reflexivity].
    destruct (K _ Ln) as (Ep & _ & _ & Ec). specialize (CS _ Ln). unfold known_hash. rewrite Ep, Ec.
    apply bind_ext; intros _ s1. apply bind_ext; intros s2 s3.
    destruct (idx_get _ _) as [p|].
    + apply bind_ext; intros x s4. now rewrite CS.
    + apply bind_ext; intros [[p rc] a] s4. apply bind_ext; intros _ s5.
      apply bind_ext; intros s6 s7. now rewrite CS.
  - unfold msg_empty_data. rewrite L.
    destruct (Nat.eqb_spec (length rx) (env_len ED_LEN)) as [Ln|_]; [|reflexivity].
    specialize (CS _ Ln). destruct (K _ Ln) as (Ep & _).
    apply bind_ext; intros _ s1. 
    enough (handle_resp_conf P rx' s1 = handle_resp_conf P rx s1) as Em
      by (unfold bind; now rewrite Em).
    unfold handle_resp_conf. rewrite Ep.
    apply bind_ext; intros o s2. apply bind_ext; intros p s3. apply bind_ext; intros x s4.
    apply bind_ext; intros s5 s6. now rewrite CS.
  - exfalso. apply N. rewrite Erx. apply mt_code_of in Et. subst b. reflexivity.
Qed.
Print Assumptions C26_cookie_field_ignored.

(** * The hypotheses can be met *)

Example C24_nonvacuous :
  reachable Demo.P Demo.B2 /\
  valid (Demo.mk 5 x05 (OMsg (removelast Demo.m1) Demo.tx)) Demo.B2 /\
  ~ well_sized (removelast Demo.m1) /\ well_sized Demo.m1.
Proof.
  split; [exact reachB2|]. split; [Demo.okv|]. split.
  - intros (b & n & A & B & C). vm_compute in A. injection A as <-.
    injection B as <-. vm_compute in C. discriminate.
  - exists x81, 1060. split; [vm_compute; reflexivity|]. split; [reflexivity|vm_compute; reflexivity].
Qed.

Example C26_nonvacuous :
  run Demo.P Demo.A0 [(Demo.cA1, snd Demo.rA1)] Demo.A1 /\ valid Demo.cA2 Demo.A1 /\
  exec Demo.P Demo.cA2 Demo.A1 = (Demo.A2, Ok (RSent Demo.m1)) /\
  ~ is_type x86 Demo.m1 /\
  sealed Demo.P Shake Demo.pkB Demo.m1 /\ ~ sealed Demo.P Shake Demo.pkA Demo.m1.
Proof.
  split.
  { apply Demo.step; [split; [apply Demo.wf_coin|exact Logic.I]|vm_compute; reflexivity|constructor]. }
  split; [Demo.okv|]. split; [vm_compute; reflexivity|]. split; [vm_compute; discriminate|].
  split; [vm_compute; reflexivity|]. vm_compute. discriminate.
Qed.
