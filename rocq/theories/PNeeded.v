(** C91, C92: the conditions on static and pre-shared keys are needed.  Somebody who has the static key of an agent and
    the pre-shared key (or there is none) can take the place of this agent, in either role, and knows the keys that come
    out.  This also shows that the attacker of the symbolic model is not too weak to do so. *)
From Verif Require Import Base ConstTime Prims HashDomains.
From Verif Require Import Sym SymSec PSym.

Lemma knows_chain_from cfg tr g l : forall ck, knows cfg tr ck -> Forall (knows cfg tr) l -> knows cfg tr (chain_from g ck l).
Proof.
  unfold chain_from. induction l as [|y l IH]; intros ck K F; [exact K|]. inversion F; subst. cbn [fold_left].
  apply IH; [apply knows_ckmix; assumption|assumption].
Qed.
Lemma knows_chain cfg tr g pk l : knows cfg tr pk -> Forall (knows cfg tr) l -> knows cfg tr (chain g pk l).
Proof. intros K F. apply knows_chain_from; [|exact F]. apply k_hash; [apply knows_label|exact K]. Qed.
Lemma knows_more cfg tr e t : knows cfg tr t -> knows cfg (e :: tr) t.
Proof. induction 1; eauto using knows. eapply k_sent; [right; eassumption|eassumption]. Qed.
Lemma knows_given cfg tr n : revealed tr n -> knows cfg tr (Nm n).
Proof. intros R. apply k_sent with (EReveal n); [exact R|left; reflexivity]. Qed.

(** Taking the place of the responder [B] towards the initiator [A]. *)
Theorem C91_lost_keys_responder_impersonated cfg tr run A p B :
  valid cfg tr -> fresh run tr -> In p (cfg A) -> e_pk p = pkey B ->
  revealed tr (NStatic B) -> knows cfg tr (e_psk p) ->
  exists m ck, let tr' := EConf run A p m :: EInit run A p :: tr in
    valid cfg tr' /\ initiator_has tr' run A p m ck /\
    (forall run' B' k q, ~ answered cfg tr' run' B' k (fst (s_init run A p)) q m) /\
    knows cfg tr' ck /\ forall ds, knows cfg tr' (s_osk (e_alg p) ck (s_ds (e_alg p) ds)).
Proof.
  intros V F Ip Pb Rb Kp. set (t1 := EInit run A p :: tr).
  assert (V1 : valid cfg t1) by (apply v_init; assumption).
  set (h := fst (s_init run A p)).
  assert (Kh : forall t, In t (ih_fields h) -> knows cfg t1 t) by (intros t T; eapply k_sent; [left; reflexivity|exact T]).
  assert (Ks : knows cfg t1 (Nm (NStatic B))) by (apply knows_more, knows_given; exact Rb).
  assert (Kp1 : knows cfg t1 (e_psk p)) by (apply knows_more; exact Kp).
  assert (Ka : knows cfg t1 (pkey A)) by apply k_public.
  assert (Kpk : knows cfg t1 (e_pk p)) by (rewrite Pb; apply k_public).
  assert (K3 : knows cfg t1 (y_sidi h)) by (apply Kh; left; reflexivity).
  assert (K4 : knows cfg t1 (y_epki h)) by (apply Kh; do 1 right; left; reflexivity).
  assert (K5 : knows cfg t1 (y_sctr h)) by (apply Kh; do 2 right; left; reflexivity).
  assert (K6 : knows cfg t1 (y_pidct h)) by (apply Kh; do 3 right; left; reflexivity).
  assert (K7 : knows cfg t1 (y_auth h)) by (apply Kh; do 4 right; left; reflexivity).
  (* the secret for the static key of B: decapsulated with the lost key *)
  assert (K8 : knows cfg t1 (Shk false (e_pk p) (Nm (NCoin run false)))).
  { pose proof (k_dec cfg t1 false _ _ Ks K5) as D.
    change (y_sctr h) with (Ct false (e_pk p) (Nm (NCoin run false))) in D. rewrite Pb in D.
    change (pkey B) with (Pk false (Nm (NStatic B))) in D. rewrite kdec_own in D. rewrite Pb. exact D. }
  set (epk := Pk true (Nm (NEsk run))) in *. change (y_epki h) with epk in *.
  set (m0 := {| z_sidr := Lit []; z_sidi := Nm (NSid run); z_ecti := Ct true epk (Nm (NAdv 0));
                z_scti := Ct false (pkey A) (Nm (NAdv 1)); z_auth := Lit []; z_biscuit := Lit [] |}).
  set (g := e_alg p).
  set (items := initiator_items run A p m0).
  assert (E1 : kdec true (Nm (NEsk run)) (z_ecti m0) = Shk true epk (Nm (NAdv 0))) by apply kdec_own.
  assert (E2 : kdec false (skey A) (z_scti m0) = Shk false (pkey A) (Nm (NAdv 1))) by apply kdec_own.
  assert (Ki : Forall (knows cfg t1) items).
  { unfold items, initiator_items. rewrite E1, E2. unfold hello_all, hello_items, answer_items. fold h.
    change (y_epki h) with epk.
    cbn [List.app m0 z_sidr z_sidi z_ecti z_scti z_biscuit].
    repeat (apply Forall_cons; [eauto using k_lit, k_adv, k_shk, k_ct|]). apply Forall_nil. }
  set (c := chain g (e_pk p) items).
  assert (Kc : knows cfg t1 c) by (apply knows_chain; assumption).
  set (m := {| z_sidr := z_sidr m0; z_sidi := z_sidi m0; z_ecti := z_ecti m0; z_scti := z_scti m0;
               z_auth := s_tag (s_key g c) (Lit []); z_biscuit := z_biscuit m0 |}).
  destruct (honest_conf run A p m (Lit [])) as (ic & ck & E); [reflexivity|reflexivity|].
  assert (V2 : valid cfg (EConf run A p m :: t1)).
  { eapply v_conf; [exact V1|left; reflexivity| |exact E].
    intros t T. unfold rh_fields in T. cbn [m m0 z_sidr z_sidi z_ecti z_scti z_auth z_biscuit] in T.
    repeat (destruct T as [T|T]; [subst t; eauto using k_lit, k_ct, k_adv, knows_tag|]). destruct T. }
  assert (Kck : knows cfg (EConf run A p m :: t1) ck).
  { rewrite (conf_chain _ _ _ _ _ _ E). apply knows_chain; [apply knows_more; exact Kpk|].
    apply Forall_app. split.
    - change (initiator_items run A p m) with items. eapply Forall_impl; [|exact Ki]. intros t. apply knows_more.
    - unfold conf_items. cbn [m m0 z_auth z_sidi z_sidr].
      apply Forall_cons; [apply knows_more, knows_tag; auto using k_lit|].
      apply Forall_cons; [apply knows_more; exact K3|]. apply Forall_cons; [apply k_lit|].
      apply Forall_cons; [|apply Forall_nil].
      eapply k_sent; [left; reflexivity|]. cbn [sent]. rewrite E. do 3 right. left. reflexivity. }
  exists m, ck. cbn zeta. fold t1. split; [exact V2|]. split; [split; [left; reflexivity|exists ic; exact E]|].
  split; [|split; [exact Kck|]].
  - intros run' B' k q (bno & g' & c' & _ & S).
    destruct (resp_spec _ _ _ _ _ _ _ _ _ _ S) as (_ & _ & _ & _ & _ & Z & _). discriminate Z.
  - intros ds. apply k_hash; [exact Kck|apply knows_ds].
Qed.
Print Assumptions C91_lost_keys_responder_impersonated.

Lemma resp_accepts peers run B k bno q m : let g := e_alg q in
  s_find peers (s_pid g (e_pk q)) = Some q ->
  let shk := kdec false (skey B) (y_sctr m) in
  y_pidct m = s_tag (s_key g (chain g (pkey B) (hello_items (pkey B) m shk))) (s_pid g (e_pk q)) ->
  y_auth m = s_tag (s_key g (chain g (pkey B) (hello_items (pkey B) m shk ++ [y_pidct m; e_pk q; e_psk q]))) (Lit []) ->
  exists rh ck, s_resp peers run B k bno g m = Some (q, rh, ck).
Proof.
  intros g F shk E4 E5.
  assert (O1 : forall c5, c5 = chain g (pkey B) (hello_items (pkey B) m shk) ->
    s_open g c5 (y_pidct m) = Some (s_pid g (e_pk q), s_ckmix g c5 (y_pidct m))).
  { intros c5 ->. rewrite E4. apply open_tag. }
  assert (O2 : forall c8, c8 = chain g (pkey B) (hello_items (pkey B) m shk ++ [y_pidct m; e_pk q; e_psk q]) ->
    s_open g c8 (y_auth m) = Some (Lit [], s_ckmix g c8 (y_auth m))).
  { intros c8 ->. rewrite E5. apply open_tag. }
  assert (X : halg_eqb g g = true) by now apply halg_eqb_eq.
  do 2 eexists. unfold s_resp. fold shk. rewrite O1 by reflexivity. rewrite F. rewrite O2 by reflexivity. fold g. rewrite X.
  unfold s_seal. reflexivity.
Qed.

(** Taking the place of the initiator [A] towards the responder [B].  No agent does anything but [B]. *)
Theorem C92_lost_keys_initiator_impersonated cfg tr run B k bno q A ctr :
  valid cfg tr -> fresh run tr -> s_find (cfg B) (s_pid (e_alg q) (e_pk q)) = Some q -> e_pk q = pkey A ->
  revealed tr (NStatic A) -> knows cfg tr (e_psk q) ->
  exists m ic ck, let tr' := EDone B k (e_alg q) ic ctr :: EResp run B k bno (e_alg q) m :: tr in
    valid cfg tr' /\ responder_has cfg tr' B k q ic ck /\
    knows cfg tr' ck /\ forall ds, knows cfg tr' (s_osk (e_alg q) ck (s_ds (e_alg q) ds)).
Proof.
  intros V F Fi Pa Ra Kp. set (g := e_alg q) in *.
  set (epk := Pk true (Nm (NAdv 0))). set (sctr := Ct false (pkey B) (Nm (NAdv 1))).
  set (shk := Shk false (pkey B) (Nm (NAdv 1))).
  assert (E0 : kdec false (skey B) sctr = shk) by apply kdec_own.
  set (c5 := chain g (pkey B) [Lit []; epk; pkey B; shk; sctr]).
  set (pidct := s_tag (s_key g c5) (s_pid g (e_pk q))).
  set (c8 := chain g (pkey B) [Lit []; epk; pkey B; shk; sctr; pidct; e_pk q; e_psk q]).
  set (m := {| y_sidi := Lit []; y_epki := epk; y_sctr := sctr; y_pidct := pidct; y_auth := s_tag (s_key g c8) (Lit []) |}).
  assert (Kpk : knows cfg tr (e_pk q)) by (rewrite Pa; apply k_public).
  assert (Kb : knows cfg tr (pkey B)) by apply k_public.
  assert (K1 : knows cfg tr epk) by (apply k_pk, k_adv).
  assert (K2 : knows cfg tr sctr) by (apply k_ct; [exact Kb|apply k_adv]).
  assert (K3 : knows cfg tr shk) by (apply k_shk; [exact Kb|apply k_adv]).
  assert (K4 : knows cfg tr c5).
  { apply knows_chain; [exact Kb|]. repeat (apply Forall_cons; [auto using k_lit|]). apply Forall_nil. }
  assert (K5 : knows cfg tr pidct).
  { apply knows_tag; [exact K4|]. apply k_hash; [apply knows_label|exact Kpk]. }
  assert (K6 : knows cfg tr c8).
  { apply knows_chain; [exact Kb|]. repeat (apply Forall_cons; [auto using k_lit|]). apply Forall_nil. }
  destruct (resp_accepts (cfg B) run B k bno q m Fi) as (rh & c0 & S).
  { cbn [m y_sctr y_pidct]. rewrite E0. reflexivity. }
  { cbn [m y_sctr y_pidct y_auth]. rewrite E0. reflexivity. }
  fold g in S. set (t1 := EResp run B k bno g m :: tr).
  assert (V1 : valid cfg t1).
  { eapply v_resp; [exact V|exact F| |exact S]. intros t T. unfold ih_fields in T. cbn [m y_sidi y_epki y_sctr y_pidct y_auth] in T.
    repeat (destruct T as [T|T]; [subst t; auto using k_lit, knows_tag|]). destruct T. }
  destruct (resp_spec _ _ _ _ _ _ _ _ _ _ S) as (pt & _ & _ & _ & _ & Z1 & Z2 & Z3 & Z4 & Z5 & Z6 & Z7).
  fold (responder_items B q m rh run) in Z5.
  assert (Kr : forall t, In t (rh_fields rh) -> knows cfg t1 t).
  { intros t T. eapply k_sent; [left; reflexivity|]. cbn [sent]. rewrite S. exact T. }
  assert (R1 : knows cfg t1 (z_sidr rh)) by (apply Kr; left; reflexivity).
  assert (R2 : knows cfg t1 (z_sidi rh)) by (apply Kr; do 1 right; left; reflexivity).
  assert (R3 : knows cfg t1 (z_ecti rh)) by (apply Kr; do 2 right; left; reflexivity).
  assert (R4 : knows cfg t1 (z_scti rh)) by (apply Kr; do 3 right; left; reflexivity).
  assert (R5 : knows cfg t1 (z_auth rh)) by (apply Kr; do 4 right; left; reflexivity).
  assert (R6 : knows cfg t1 (z_biscuit rh)) by (apply Kr; do 5 right; left; reflexivity).
  (* the two secrets of the answer: with the attacker's own ephemeral key, and with the lost static key *)
  assert (R7 : knows cfg t1 (Shk true epk (Nm (NCoin run false)))).
  { pose proof (k_dec cfg t1 true _ _ (k_adv cfg t1 0) R3) as D. rewrite Z3 in D. cbn [m y_epki] in D. unfold epk in D at 1.
    rewrite kdec_own in D. exact D. }
  assert (R8 : knows cfg t1 (Shk false (e_pk q) (Nm (NCoin run true)))).
  { pose proof (k_dec cfg t1 false _ _ (knows_more _ _ _ _ (knows_given _ _ _ Ra)) R4) as D. rewrite Z4, Pa in D.
    change (pkey A) with (Pk false (Nm (NStatic A))) in D. rewrite kdec_own in D. rewrite Pa. exact D. }
  set (items := responder_items B q m rh run ++ [z_biscuit rh; z_auth rh; z_sidi rh; z_sidr rh]).
  assert (Ki : Forall (knows cfg t1) items).
  { unfold items, responder_items, hello_all, hello_items, answer_items. cbn [m y_sctr y_sidi y_epki y_pidct y_auth]. rewrite E0.
    cbn [List.app].
    repeat (apply Forall_cons; [solve [assumption|apply k_lit|apply knows_more; auto using knows_tag, k_lit]|]). apply Forall_nil. }
  set (c2 := chain g (pkey B) items).
  assert (Kc2 : knows cfg t1 c2) by (apply knows_chain; [apply k_public|exact Ki]).
  set (a := s_tag (s_key g c2) (Lit [])).
  assert (Ka : knows cfg t1 a) by (apply knows_tag; [exact Kc2|apply k_lit]).
  set (ic := {| w_sidi := z_sidi rh; w_sidr := z_sidr rh; w_biscuit := z_biscuit rh; w_auth := a |}).
  set (ck := s_ckmix g c2 a).
  assert (Kck : knows cfg t1 ck) by (apply knows_ckmix; assumption).
  assert (D : s_done (cfg B) B k g ic = Some (q, ck)).
  { unfold s_done, s_unbiscuit. cbn [ic w_biscuit w_sidi w_sidr w_auth]. rewrite Z6. unfold s_biscuit at 1. unfold s_biscuit at 1.
    unfold sdec. fold g. rewrite !term_eqb_refl. cbn [Bool.eqb andb]. rewrite Fi.
    unfold s_seal. fold g. rewrite <- Z6, <- Z7.
    match goal with |- context [s_open _ ?c a] => assert (X : c = c2) end.
    { unfold c2, items. rewrite chain_app, Z5. reflexivity. }
    rewrite X. unfold a at 1. rewrite open_tag. reflexivity. }
  assert (V2 : valid cfg (EDone B k g ic ctr :: t1)).
  { eapply v_done; [exact V1| |exact D]. intros t T. unfold ic_fields in T. cbn [ic w_sidi w_sidr w_biscuit w_auth] in T.
    repeat (destruct T as [T|T]; [subst t; assumption|]). destruct T. }
  exists m, ic, ck. cbn zeta. fold t1. split; [exact V2|]. split; [exists g, ctr; split; [left; reflexivity|exact D]|].
  split; [apply knows_more; exact Kck|]. intros ds. apply k_hash; [apply knows_more; exact Kck|apply knows_ds].
Qed.
Print Assumptions C92_lost_keys_initiator_impersonated.

(** * The conditions of C93 and C111 *)

(** The ephemeral key is needed: with it, the two static keys and the pre-shared key, an eavesdropper knows the initiator's keys. *)
Theorem C111_ephemeral_key_needed cfg tr run A p B m ck :
  valid cfg tr -> initiator_has tr run A p m ck -> e_pk p = pkey B ->
  revealed tr (NEsk run) -> revealed tr (NStatic A) -> revealed tr (NStatic B) -> knows cfg tr (e_psk p) ->
  knows cfg tr ck.
Proof.
  intros V [I (ic & E)] Pb Re Ra Rb Kp.
  destruct (in_split _ _ I) as (t2 & t1 & ->). set (tr := t2 ++ EConf run A p m :: t1) in *.
  pose proof (valid_suffix _ _ _ V) as V1. destruct (valid_conf _ _ _ _ _ _ V1) as (V0 & I0 & K & _).
  assert (L : incl t1 tr) by (intros x X; apply in_or_app; right; right; exact X).
  assert (Mono : forall t, knows cfg t1 t -> knows cfg tr t).
  { intros t. induction 1; eauto using knows. }
  assert (Kh : forall t, In t (ih_fields (fst (s_init run A p))) -> knows cfg tr t).
  { intros t T. eapply k_sent; [apply L; exact I0|exact T]. }
  assert (Km : forall t, In t (rh_fields m) -> knows cfg tr t) by (intros t T; apply Mono, K, T).
  set (h := fst (s_init run A p)) in *.
  assert (K5 : knows cfg tr (y_sctr h)) by (apply Kh; do 2 right; left; reflexivity).
  assert (K8 : knows cfg tr (Shk false (e_pk p) (Nm (NCoin run false)))).
  { pose proof (k_dec cfg tr false _ _ (knows_given cfg _ _ Rb) K5) as D.
    change (y_sctr h) with (Ct false (e_pk p) (Nm (NCoin run false))) in D. rewrite Pb in D.
    change (pkey B) with (Pk false (Nm (NStatic B))) in D. rewrite kdec_own in D. rewrite Pb. exact D. }
  assert (Z1 : knows cfg tr (z_sidr m)) by (apply Km; left; reflexivity).
  assert (Z2 : knows cfg tr (z_sidi m)) by (apply Km; do 1 right; left; reflexivity).
  assert (Z3 : knows cfg tr (z_ecti m)) by (apply Km; do 2 right; left; reflexivity).
  assert (Z4 : knows cfg tr (z_scti m)) by (apply Km; do 3 right; left; reflexivity).
  assert (Z5 : knows cfg tr (z_auth m)) by (apply Km; do 4 right; left; reflexivity).
  assert (Z6 : knows cfg tr (z_biscuit m)) by (apply Km; do 5 right; left; reflexivity).
  rewrite (conf_chain _ _ _ _ _ _ E). apply knows_chain; [rewrite Pb; apply k_public|]. apply Forall_app. split.
  - unfold initiator_items, hello_all, hello_items, answer_items. fold h. cbn [List.app].
    repeat (apply Forall_cons; [solve [assumption|apply k_public|rewrite Pb; apply k_public|
      apply Kh; unfold ih_fields; cbn [In]; auto 8|apply k_dec; [apply knows_given; assumption|assumption]|
      apply k_pk, knows_given; assumption]|]). apply Forall_nil.
  - unfold conf_items. repeat (apply Forall_cons; [first [assumption|eapply k_sent; [exact I|]; cbn [sent]; rewrite E; do 3 right; left; reflexivity]|]).
    apply Forall_nil.
Qed.
Print Assumptions C111_ephemeral_key_needed.

(** The biscuit key is needed, and nothing else has to be lost with it: a biscuit has the chaining key in it. *)
Theorem C111_biscuit_key_needed cfg tr run A p m ck run' B k q :
  valid cfg tr -> initiator_has tr run A p m ck -> answered cfg tr run' B k (fst (s_init run A p)) q m ->
  revealed tr (NBk B k) -> knows cfg tr ck.
Proof.
  intros V [I (ic & E)] (bno & g & c0 & Ir & S) R.
  destruct (resp_spec _ _ _ _ _ _ _ _ _ _ S) as (pt & _ & _ & G & _ & Z1 & Z2 & Z3 & Z4 & Z5 & Z6 & Z7).
  assert (Km : forall t, In t (rh_fields m) -> knows cfg tr t).
  { intros t T. eapply k_sent; [exact Ir|]. cbn [sent]. rewrite S. exact T. }
  assert (Kb : knows cfg tr (z_biscuit m)) by (apply Km; do 5 right; left; reflexivity).
  assert (Kc : knows cfg tr c0).
  { assert (Kb' := Kb). rewrite Z6 in Kb'. unfold s_biscuit in Kb'.
    pose proof (k_open _ _ _ _ _ _ _ Kb' (knows_given cfg _ _ R)) as Ko. exact (k_snd _ _ _ _ (k_snd _ _ _ _ Ko)). }
  destruct (conf_spec _ _ _ _ _ _ E) as (pt' & _ & T1 & _ & _ & _ & _ & Y7). cbn zeta in T1, Y7.
  fold (initiator_items run A p m) in T1, Y7.
  rewrite Z7 in T1. unfold s_tag, s_key in T1.
  assert (X : s_ckmix g c0 (z_biscuit m) = chain (e_alg p) (e_pk p) (initiator_items run A p m)) by congruence.
  rewrite Y7, chain_app, <- X. apply knows_chain_from; [apply knows_ckmix; assumption|].
  unfold conf_items. apply Forall_cons; [apply Km; do 4 right; left; reflexivity|].
  apply Forall_cons; [apply Km; do 1 right; left; reflexivity|]. apply Forall_cons; [apply Km; left; reflexivity|].
  apply Forall_cons; [|apply Forall_nil]. eapply k_sent; [exact I|]. cbn [sent]. rewrite E. do 3 right; left; reflexivity.
Qed.
Print Assumptions C111_biscuit_key_needed.

(** * Examples *)

(** The two agents of the examples of PSym.v, with the keys of agent 1 lost: agent 0 is deceived. *)
Example C91_impersonation_example : exists tr m ck,
  valid ex_cfg tr /\ initiator_has tr 0 0 (ex_entry 1) m ck /\ knows ex_cfg tr ck /\
  ~ revealed tr (NStatic 0) /\ (forall run' B' k q, ~ answered ex_cfg tr run' B' k (fst (s_init 0 0 (ex_entry 1))) q m).
Proof.
  set (t0 := [EReveal (NStatic 1); EReveal (NPsk 0)]).
  destruct (C91_lost_keys_responder_impersonated ex_cfg t0 0 0 (ex_entry 1) 1) as (m & ck & V & Ih & N & K & _).
  - do 2 apply v_reveal. apply v_nil.
  - split; intros; intros [Y|[Y|[]]]; discriminate Y.
  - left. reflexivity.
  - reflexivity.
  - left. reflexivity.
  - apply knows_given. right. left. reflexivity.
  - exists (EConf 0 0 (ex_entry 1) m :: EInit 0 0 (ex_entry 1) :: t0), m, ck. repeat (split; [assumption|]).
    split; [intros [Y|[Y|[Y|[Y|[]]]]]; discriminate Y|exact N].
Qed.

(** With the keys of agent 0 lost, agent 1 is. *)
Example C92_impersonation_example : exists tr ic ck,
  valid ex_cfg tr /\ responder_has ex_cfg tr 1 0 (ex_entry 0) ic ck /\ knows ex_cfg tr ck /\
  ~ revealed tr (NStatic 1) /\ (forall run A p m, ~ In (EConf run A p m) tr).
Proof.
  assert (F : s_find (ex_cfg 1) (s_pid (e_alg (ex_entry 0)) (e_pk (ex_entry 0))) = Some (ex_entry 0)).
  { change (ex_cfg 1) with [ex_entry 0]. unfold s_find. cbn [find]. rewrite term_eqb_refl. reflexivity. }
  set (t0 := [EReveal (NStatic 0); EReveal (NPsk 0)]).
  destruct (C92_lost_keys_initiator_impersonated ex_cfg t0 0 1 0 [] (ex_entry 0) 0 []) as (m & ic & ck & V & Rh & K & _).
  - do 2 apply v_reveal. apply v_nil.
  - split; intros; intros [Y|[Y|[]]]; discriminate Y.
  - exact F.
  - reflexivity.
  - left. reflexivity.
  - apply knows_given. right. left. reflexivity.
  - eexists _, ic, ck. split; [exact V|]. split; [exact Rh|]. split; [exact K|].
    split; [intros [Y|[Y|[Y|[Y|[]]]]]; discriminate Y|].
    intros run A p rh [Y|[Y|[Y|[Y|[]]]]]; discriminate Y.
Qed.

(** An honest exchange of which the attacker has the responder's biscuit key and nothing else: it knows the keys. *)
Example C111_biscuit_key_example : exists tr rh ck,
  valid ex_cfg tr /\ initiator_has tr 0 0 (ex_entry 1) rh ck /\ knows ex_cfg tr ck /\
  (forall n, revealed tr n -> n = NBk 1 0).
Proof.
  assert (F : s_find (ex_cfg 1) (s_pid (e_alg (ex_entry 0)) (e_pk (ex_entry 0))) = Some (ex_entry 0)).
  { change (ex_cfg 1) with [ex_entry 0]. unfold s_find. cbn [find]. rewrite term_eqb_refl. reflexivity. }
  destruct (C91_honest_run ex_cfg [EReveal (NBk 1 0)] 0 1 (ex_entry 1) (ex_entry 0) 0 1 0 []) as (rh & ic & ck & ctr & d & V & I1 & I2 & An & S);
    try exact F; try reflexivity; try (left; reflexivity); try discriminate.
  { apply v_reveal. apply v_nil. }
  1,2: split; intros; intros [Y|[]]; discriminate Y.
  eexists _, rh, ck. split; [exact V|]. split; [exact I1|]. split.
  - eapply C111_biscuit_key_needed; [exact V|exact I1|exact An|]. do 5 right. left. reflexivity.
  - intros n Y. unfold revealed in Y. cbn [In] in Y. repeat (destruct Y as [Y|Y]; [congruence|]). destruct Y.
Qed.

(** The same with the ephemeral key and all long-term keys. *)
Example C111_ephemeral_key_example : exists tr rh ck,
  valid ex_cfg tr /\ initiator_has tr 0 0 (ex_entry 1) rh ck /\ knows ex_cfg tr ck /\
  (forall B k, ~ revealed tr (NBk B k)).
Proof.
  assert (F : s_find (ex_cfg 1) (s_pid (e_alg (ex_entry 0)) (e_pk (ex_entry 0))) = Some (ex_entry 0)).
  { change (ex_cfg 1) with [ex_entry 0]. unfold s_find. cbn [find]. rewrite term_eqb_refl. reflexivity. }
  destruct (C91_honest_run ex_cfg [EReveal (NEsk 0); EReveal (NStatic 0); EReveal (NStatic 1); EReveal (NPsk 0)]
    0 1 (ex_entry 1) (ex_entry 0) 0 1 0 []) as (rh & ic & ck & ctr & d & V & I1 & _);
    try exact F; try reflexivity; try (left; reflexivity); try discriminate.
  { do 4 apply v_reveal. apply v_nil. }
  1,2: split; intros; intros [Y|[Y|[Y|[Y|[]]]]]; discriminate Y.
  eexists _, rh, ck. split; [exact V|]. split; [exact I1|]. split.
  - eapply C111_ephemeral_key_needed; [exact V|exact I1|reflexivity| | | |].
    + do 5 right. left. reflexivity.
    + do 6 right. left. reflexivity.
    + do 7 right. left. reflexivity.
    + apply knows_given. do 8 right. left. reflexivity.
  - intros B k Y. unfold revealed in Y. cbn [In] in Y. repeat (destruct Y as [Y|Y]; [discriminate Y|]). destruct Y.
Qed.
