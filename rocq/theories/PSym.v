(** C90 to C93: who knows the output keys and who has agreed on them, for an attacker who owns the
    network and learns keys at will (symbolic model, Sym.v). *)
From Verif Require Import Base Prims HashDomains Sym SymSec.
From Coq Require Strings.String.
Import (notations) Coq.Strings.String.

(** * Vocabulary *)

(** [A], in the handshake [run] with its peer entry [p], has accepted the RespHello [m] and now has the
    chaining key [ck]. *)
Definition initiator_has (tr : list event) (run A : nat) (p : entry) (m : s_rh) (ck : term) : Prop :=
  In (EConf run A p m) tr /\ exists ic, s_conf run A p m = Some (ic, ck).
(** [B] has answered the InitHello [m] of its peer [q] with [rh] and sealed the biscuit with its key [k]. *)
Definition answered (cfg : nat -> list entry) (tr : list event) (run B k : nat) (m : s_ih) (q : entry) (rh : s_rh) : Prop :=
  exists bno g ck, In (EResp run B k bno g m) tr /\ s_resp (cfg B) run B k bno g m = Some (q, rh, ck).
(** [B] has accepted the InitConf [m], whose biscuit was under key [k], for its peer [q], and has [ck]. *)
Definition responder_has (cfg : nat -> list entry) (tr : list event) (B k : nat) (q : entry) (m : s_ic) (ck : term) : Prop :=
  exists g ctr, In (EDone B k g m ctr) tr /\ s_done (cfg B) B k g m = Some (q, ck).

(** The pre-shared key of an entry is a value the attacker was not given. *)
Definition psk_safe (tr : list event) (p : entry) : Prop :=
  exists i, e_psk p = Nm (NPsk i) /\ ~ revealed tr (NPsk i).
(** The public key of an entry belongs to an agent whose secret key the attacker was not given, and the
    coins of an encapsulation to it were not given either. *)
Definition pk_safe (tr : list event) (p : entry) (coins : name) : Prop :=
  exists B, e_pk p = pkey B /\ ~ revealed tr (NStatic B) /\ ~ revealed tr coins.

(** No biscuit for the session id of [run] was sealed under a key the attacker was given. *)
Definition biscuits_safe (tr : list event) (run : nat) (p : entry) : Prop :=
  forall run' B k bno g m, In (EResp run' B k bno g m) tr -> e_pk p = pkey B ->
    y_sidi m = Nm (NSid run) -> ~ revealed tr (NBk B k).

(** Neither the chaining key nor an output key derived from it is known, except for output keys the
    attacker was given themselves. *)
Definition keys_secret (cfg : nat -> list entry) (tr : list event) (g : halg) (ck : term) : Prop :=
  ~ knows cfg tr ck /\
  forall ds, ~ In (EOsk g ck (s_ds g ds)) tr -> ~ knows cfg tr (s_osk g ck (s_ds g ds)).

(** * Lemmas *)

Lemma resp_unique cfg tr run B k bno g m B' k' bno' g' m' : valid cfg tr ->
  In (EResp run B k bno g m) tr -> In (EResp run B' k' bno' g' m') tr ->
  B = B' /\ k = k' /\ bno = bno' /\ g = g' /\ m = m'.
Proof.
  induction tr as [|e tr IH]; intros V I I'; [destruct I|].
  destruct I as [->|I], I' as [E|I'].
  - assert (B = B') by congruence. assert (k = k') by congruence. assert (bno = bno') by congruence.
    assert (g = g') by congruence. assert (m = m') by congruence. auto.
  - exfalso. inversion V; subst. match goal with F : fresh _ _ |- _ => exact (proj2 F _ _ _ _ _ I') end.
  - exfalso. subst e. inversion V; subst. match goal with F : fresh _ _ |- _ => exact (proj2 F _ _ _ _ _ I) end.
  - exact (IH (valid_tail _ _ _ V) I I').
Qed.

Lemma not_pub_shk cfg tr (e : bool) s n : ~ revealed tr n -> ~ revealed tr s -> ~ open_name n -> ~ open_name s ->
  ~ pub cfg tr (Shk e (Pk e (Nm s)) (Nm n)).
Proof. intros R1 R2 O1 O2 [[X|X]|[_ [X|X]]]; auto. Qed.
Lemma not_pub_psk cfg tr p : psk_safe tr p -> ~ pub cfg tr (e_psk p).
Proof. intros (i & E & R). rewrite E. intros [[]|X]; auto. Qed.

Lemma secret_of_not_pub cfg tr g pk l : valid cfg tr -> ~ Forall (pub cfg tr) l -> ~ biscuit_leak cfg tr g pk l ->
  keys_secret cfg tr g (chain g pk l).
Proof.
  intros V N L. split.
  - intros K. apply (known_pub cfg) in K; [|exact V]. destruct (pub_chain cfg _ _ _ _ V K); auto.
  - intros ds O K. apply (known_pub cfg) in K; [|exact V]. 
    destruct (pub_key cfg _ _ _ _ _ V K) as [F|[F|F]]; auto.
Qed.

Definition initiator_items (run A : nat) (p : entry) (m : s_rh) : list term :=
  hello_all (e_pk p) (fst (s_init run A p)) (Shk false (e_pk p) (Nm (NCoin run false))) (pkey A) (e_psk p) ++
  answer_items (Pk true (Nm (NEsk run))) (z_sidr m) (z_sidi m) (pkey A)
    (kdec true (Nm (NEsk run)) (z_ecti m)) (z_ecti m) (kdec false (skey A) (z_scti m)) (z_scti m) ++ [z_biscuit m].
Definition responder_items (B : nat) (q : entry) (m : s_ih) (rh : s_rh) (run : nat) : list term :=
  hello_all (pkey B) m (kdec false (skey B) (y_sctr m)) (e_pk q) (e_psk q) ++
         answer_items (y_epki m) (z_sidr rh) (z_sidi rh) (e_pk q)
           (Shk true (y_epki m) (Nm (NCoin run false))) (z_ecti rh)
           (Shk false (e_pk q) (Nm (NCoin run true))) (z_scti rh).

Lemma init_sid run A p : y_sidi (fst (s_init run A p)) = Nm (NSid run).
Proof. reflexivity. Qed.

(** Items of the initiator that start with those of a biscuit: the biscuit is of this session. *)
Lemma initiator_leak cfg tr run A p m l : valid cfg tr ->
  biscuit_leak cfg tr (e_alg p) (e_pk p) (initiator_items run A p m ++ l) -> length l <= 4 ->
  exists run' B k bno m', In (EResp run' B k bno (e_alg p) m') tr /\ e_pk p = pkey B /\
    y_sidi m' = Nm (NSid run) /\ z_sidr m = Nm (NSid run') /\ revealed tr (NBk B k).
Proof.
  intros V (pre & post & run' & B & k & bno & m' & q & rh & E & I & P & R & S) _.
  destruct (resp_spec _ _ _ _ _ _ _ _ _ _ S) as (pt & _ & _ & _ & _ & E1 & _ & _ & _ & E5 & _ & _).
  destruct (chain_inj _ _ _ _ _ _ E5) as (_ & _ & X). subst pre. 
  exists run', B, k, bno, m'. rewrite E1 in E. unfold initiator_items, hello_all, hello_items, answer_items in E.
  cbn [List.app] in E. assert (y_sidi m' = y_sidi (fst (s_init run A p))) by congruence.
  assert (z_sidr m = Nm (NSid run')) by congruence. rewrite init_sid in H. auto.
Qed.

Lemma initiator_not_pub cfg tr run A p m l : 
  pk_safe tr p (NCoin run false) \/ psk_safe tr p ->
  ~ Forall (pub cfg tr) (initiator_items run A p m ++ l).
Proof.
  intros C F. rewrite Forall_forall in F. destruct C as [(B & E & R1 & R2)|C].
  - apply (not_pub_shk cfg tr false (NStatic B) (NCoin run false)); auto. apply F.
    rewrite <- (eq_refl : pkey B = Pk false (Nm (NStatic B))), <- E. apply in_or_app. left. unfold initiator_items, hello_all, hello_items.
    cbn [List.app]. do 3 right. left. reflexivity.
  - apply (not_pub_psk cfg tr p C). apply F. apply in_or_app. left. unfold initiator_items, hello_all, hello_items.
    cbn [List.app]. do 7 right. left. reflexivity.
Qed.

Lemma conf_chain run A p m ic ck : s_conf run A p m = Some (ic, ck) ->
  ck = chain (e_alg p) (e_pk p) (initiator_items run A p m ++ conf_items m (w_auth ic)).
Proof. intros E. destruct (conf_spec _ _ _ _ _ _ E) as (pt & _ & _ & _ & _ & _ & _ & X). exact X. Qed.

(** * C90: secrecy for the initiator *)

(** Who has finished a handshake as initiator has keys that the attacker does not know, if the static key
    of the peer is safe or the pre-shared key is, and the biscuits of the session are. *)
Theorem C90_initiator_secrecy cfg tr run A p m ck :
  valid cfg tr -> initiator_has tr run A p m ck ->
  pk_safe tr p (NCoin run false) \/ psk_safe tr p ->
  biscuits_safe tr run p ->
  keys_secret cfg tr (e_alg p) ck.
Proof.
  intros V (I & ic & E) C BS. rewrite (conf_chain _ _ _ _ _ _ E). apply secret_of_not_pub; [exact V| |].
  - apply initiator_not_pub. exact C.
  - intros L. destruct (initiator_leak _ _ _ _ _ _ _ V L) as (run' & B & k & bno & m' & I' & P & S & _ & R); [cbn; lia|].
    exact (BS _ _ _ _ _ _ I' P S R).
Qed.
Print Assumptions C90_initiator_secrecy.

(** * Who made a tag *)

Lemma tag_inj g pk l pt g' pk' l' pt' :
  s_tag (s_key g (chain g pk l)) pt = s_tag (s_key g' (chain g' pk' l')) pt' ->
  g = g' /\ pk = pk' /\ l = l' /\ pt = pt'.
Proof.
  intros E. unfold s_tag, s_key in E.
  assert (X : chain g pk l = chain g' pk' l') by congruence.
  assert (pt = pt') by congruence. destruct (chain_inj _ _ _ _ _ _ X) as (-> & -> & ->). auto.
Qed.

Lemma made_tag cfg tr g pk l pt : made cfg tr (s_tag (s_key g (chain g pk l)) pt) ->
  length l = 5 \/ length l = 8 \/
  (exists run B k bno m q rh ck, In (EResp run B k bno g m) tr /\ s_resp (cfg B) run B k bno g m = Some (q, rh, ck) /\
     pk = pkey B /\ l = responder_items B q m rh run ++ [z_biscuit rh] /\ 
     z_auth rh = s_tag (s_key g (chain g pk l)) pt) \/
  (exists run A p m ic ck, In (EConf run A p m) tr /\ s_conf run A p m = Some (ic, ck) /\ g = e_alg p /\
     pk = e_pk p /\ l = initiator_items run A p m ++ [z_auth m; z_sidi m; z_sidr m] /\
     w_auth ic = s_tag (s_key g (chain g pk l)) pt).
Proof.
  intros (e & I & T). destruct e as [run A p|run B k bno g' m|run A p m|B k g' m ctr|run A p m ctr d|n|g' ck l']; cbn [sealed] in T.
  - destruct (s_init run A p) as [m ck] eqn:E. cbn [fst] in T.
    destruct (init_spec _ _ _ _ _ E) as (_ & _ & _ & E4 & E5 & _). 
    destruct T as [T|[T|[]]].
    + rewrite E4 in T. apply tag_inj in T. destruct T as (_ & _ & <- & _). left. reflexivity.
    + rewrite E5 in T. apply tag_inj in T. destruct T as (_ & _ & <- & _). right. left. reflexivity.
  - destruct (s_resp (cfg B) run B k bno g' m) as [[[q rh] ck]|] eqn:E; [|destruct T].
    destruct (resp_spec _ _ _ _ _ _ _ _ _ _ E) as (pt' & _ & _ & _ & _ & _ & _ & _ & _ & E5 & E6 & E7).
    destruct T as [T|[T|[]]].
    + right. right. left. assert (X := T). rewrite E7, E5, <- chain_snoc in X. apply tag_inj in X.
      destruct X as (-> & <- & X & _). exists run, B, k, bno, m, q, rh, ck. auto 8.
    + exfalso. rewrite E6 in T. unfold s_biscuit, s_tag in T. congruence.
  - destruct (s_conf run A p m) as [[ic ck]|] eqn:E; [|destruct T].
    destruct (conf_spec _ _ _ _ _ _ E) as (pt' & _ & _ & _ & _ & _ & E4 & _).
    destruct T as [T|[]]. right. right. right. assert (X := T). rewrite E4 in X. apply tag_inj in X.
    destruct X as (<- & <- & X & _). exists run, A, p, m, ic, ck. auto 8.
  - destruct (s_done (cfg B) B k g' m) as [[q ck]|] eqn:E; [|destruct T].
    destruct T as [T|[]]. exfalso. unfold s_empty, s_tag, s_key in T.
    assert (X : s_hs_enc g = s_res_enc (e_alg q)) by congruence. exact (hs_res _ _ X).
  - destruct T.
  - destruct T.
  - destruct T.
Qed.

(** A tag under a key the attacker cannot derive was made by somebody. *)
Lemma known_tag_made cfg tr x k n ad pt : valid cfg tr -> knows cfg tr (Aead x k n ad pt) -> ~ pub cfg tr k ->
  made cfg tr (Aead x k n ad pt).
Proof.
  intros V K N. apply (known_pub cfg) in K; [|exact V]. destruct K as [_ [[X _]|[X _]]]; [contradiction|exact X].
Qed.

Lemma key_not_pub cfg tr g pk l ds : valid cfg tr -> ~ Forall (pub cfg tr) l -> ~ biscuit_leak cfg tr g pk l ->
  ds = s_hs_enc g \/ ds = s_res_enc g -> ~ pub cfg tr (H g (chain g pk l) ds).
Proof.
  intros V N L D Pb. destruct (pub_key cfg _ _ _ _ _ V Pb) as [X|[X|X]]; auto.
  destruct (osk_shape cfg _ _ _ _ V X) as ((d & E) & _). destruct D as [D|D]; rewrite D in E; symmetry in E.
  - exact (ds_hs _ _ _ E).
  - exact (ds_res _ _ _ E).
Qed.

Lemma rh_eq (a b : s_rh) : z_sidr a = z_sidr b -> z_sidi a = z_sidi b -> z_ecti a = z_ecti b -> z_scti a = z_scti b ->
  z_auth a = z_auth b -> z_biscuit a = z_biscuit b -> a = b.
Proof. destruct a, b. cbn. congruence. Qed.
Lemma ih_eq (a b : s_ih) : y_sidi a = y_sidi b -> y_epki a = y_epki b -> y_sctr a = y_sctr b -> y_pidct a = y_pidct b ->
  y_auth a = y_auth b -> a = b.
Proof. destruct a, b. cbn. congruence. Qed.
Lemma ic_eq (a b : s_ic) : w_sidi a = w_sidi b -> w_sidr a = w_sidr b -> w_biscuit a = w_biscuit b ->
  w_auth a = w_auth b -> a = b.
Proof. destruct a, b. cbn. congruence. Qed.

(** Equal items on both sides: all they have in common. *)
Lemma items_agree B q m rh run run0 A p m0 :
  responder_items B q m rh run ++ [z_biscuit rh] = initiator_items run0 A p m0 ->
  m = fst (s_init run0 A p) /\ e_pk q = pkey A /\ e_psk q = e_psk p /\ z_sidr rh = z_sidr m0 /\
  z_sidi rh = z_sidi m0 /\ z_ecti rh = z_ecti m0 /\ z_scti rh = z_scti m0 /\ z_biscuit rh = z_biscuit m0.
Proof.
  intros E. unfold responder_items, initiator_items, hello_all, hello_items, answer_items in E.
  cbn [List.app] in E. injection E. intros. repeat match goal with |- _ /\ _ => split end; try congruence.
  apply ih_eq; congruence.
Qed.

(** What a RespHello accepted by the initiator tells it. *)
Lemma initiator_agrees cfg tr run A p m ic ck :
  valid cfg tr -> (forall t, In t (rh_fields m) -> knows cfg tr t) -> s_conf run A p m = Some (ic, ck) ->
  pk_safe tr p (NCoin run false) \/ psk_safe tr p -> biscuits_safe tr run p ->
  exists B run' k bno q ck', In (EResp run' B k bno (e_alg p) (fst (s_init run A p))) tr /\
    s_resp (cfg B) run' B k bno (e_alg p) (fst (s_init run A p)) = Some (q, m, ck') /\
    e_pk p = pkey B /\ e_pk q = pkey A /\ e_psk q = e_psk p.
Proof.
  intros V K E C BS. destruct (conf_spec _ _ _ _ _ _ E) as (pt & E0 & E1 & _).
  assert (KA : knows cfg tr (z_auth m)) by (apply K; do 4 right; left; reflexivity).
  fold (initiator_items run A p m) in E1. cbn zeta in E1.
  assert (N : ~ pub cfg tr (s_key (e_alg p) (chain (e_alg p) (e_pk p) (initiator_items run A p m)))).
  { apply key_not_pub; [exact V| | |now left].
    - pose proof (initiator_not_pub cfg tr run A p m [] C) as X. rewrite app_nil_r in X. exact X.
    - intros L. rewrite <- (app_nil_r (initiator_items run A p m)) in L.
      destruct (initiator_leak _ _ _ _ _ _ _ V L) as (run' & B & k & bno & m' & I' & P & S & _ & R); [cbn; lia|].
      exact (BS _ _ _ _ _ _ I' P S R). }
  rewrite E1 in KA. apply (known_tag_made _ _ _ _ _ _ _ V KA) in N.
  apply made_tag in N. destruct N as [N|[N|[N|N]]].
  - cbn in N. lia.
  - cbn in N. lia.
  - destruct N as (run' & B & k & bno & m' & q & rh & ck' & I' & S & P & L & T).
    destruct (items_agree _ _ _ _ _ _ _ _ _ (eq_sym L)) as (-> & Q1 & Q2 & R1 & R2 & R3 & R4 & R5).
    assert (rh = m). { apply rh_eq; auto. rewrite T. symmetry. exact E1. }
    subst rh. exists B, run', k, bno, q, ck'. auto.
  - destruct N as (run' & A' & p' & m' & ic' & ck' & _ & _ & _ & _ & L & _).
    apply (f_equal (@length term)) in L. rewrite app_length in L. cbn in L. lia.
Qed.

(** * C91: agreement *)

Lemma valid_conf cfg tr run A p m : valid cfg (EConf run A p m :: tr) ->
  valid cfg tr /\ In (EInit run A p) tr /\ (forall t, In t (rh_fields m) -> knows cfg tr t) /\
  exists ic ck, s_conf run A p m = Some (ic, ck).
Proof.
  intros V. inversion V; subst. match goal with r : (s_ic * term)%type |- _ => destruct r end. eauto 8.
Qed.
Lemma valid_done cfg tr B k g m ctr : valid cfg (EDone B k g m ctr :: tr) ->
  valid cfg tr /\ (forall t, In t (ic_fields m) -> knows cfg tr t) /\
  exists q ck, s_done (cfg B) B k g m = Some (q, ck).
Proof.
  intros V. inversion V; subst. match goal with r : (entry * term)%type |- _ => destruct r end. eauto 8.
Qed.

(** When [A] accepts a RespHello and the static key of its peer, or the pre-shared key, is safe by then: the
    message is the answer of that peer to the InitHello of this very handshake, made for the same
    public and pre-shared keys. *)
Theorem C91_initiator_agreement cfg tr2 tr1 run A p m :
  valid cfg (tr2 ++ EConf run A p m :: tr1) ->
  pk_safe tr1 p (NCoin run false) \/ psk_safe tr1 p ->
  biscuits_safe tr1 run p ->
  exists B run' k q, answered cfg tr1 run' B k (fst (s_init run A p)) q m /\
    e_pk p = pkey B /\ e_pk q = pkey A /\ e_psk q = e_psk p /\ e_alg q = e_alg p.
Proof.
  intros V C BS. apply valid_suffix in V. destruct (valid_conf _ _ _ _ _ _ V) as (V1 & _ & K & ic & ck & E).
  destruct (initiator_agrees _ _ _ _ _ _ _ _ V1 K E C BS) as (B & run' & k & bno & q & ck' & I & S & P1 & P2 & P3).
  exists B, run', k, q. split; [exists bno, (e_alg p), ck'; auto|].
  destruct (resp_spec _ _ _ _ _ _ _ _ _ _ S) as (_ & _ & _ & G & _). auto.
Qed.
Print Assumptions C91_initiator_agreement.

(** The biscuit of an accepted InitConf. *)
Lemma responder_biscuit cfg tr B k g m q ck :
  valid cfg tr -> (forall t, In t (ic_fields m) -> knows cfg tr t) -> s_done (cfg B) B k g m = Some (q, ck) ->
  ~ revealed tr (NBk B k) ->
  exists run bno m' rh c0 pt, In (EResp run B k bno g m') tr /\
    s_resp (cfg B) run B k bno g m' = Some (q, rh, c0) /\
    w_biscuit m = z_biscuit rh /\ w_sidi m = z_sidi rh /\ w_sidr m = z_sidr rh /\ e_alg q = g /\
    w_auth m = s_tag (s_key g (chain g (pkey B) (responder_items B q m' rh run ++
                 [z_biscuit rh; z_auth rh; z_sidi rh; z_sidr rh]))) pt /\
    ck = chain g (pkey B) (responder_items B q m' rh run ++
           [z_biscuit rh; z_auth rh; z_sidi rh; z_sidr rh; w_auth m]).
Proof.
  intros V K D R. destruct (done_spec _ _ _ _ _ _ _ D) as (n & bno & c0 & pt & E1 & F & E2 & E3). cbn zeta in *.
  assert (KB : knows cfg tr (w_biscuit m)) by (apply K; do 2 right; left; reflexivity).
  rewrite E1 in KB. apply known_tag_made in KB; [|exact V|intros [[]|X]; auto].
  destruct KB as (e & I & T). destruct e as [run A p|run B' k' bno' g' m'|run A p m'|B' k' g' m' ctr|run A p m' ctr d|n'|g' ck' l']; cbn [sealed] in T.
  - exfalso. destruct (s_init run A p) as [m' c] eqn:E. cbn [fst] in T.
    destruct (init_spec _ _ _ _ _ E) as (_ & _ & _ & E4 & E5 & _). rewrite E4, E5 in T. unfold s_tag in T.
    destruct T as [T|[T|[]]]; congruence.
  - destruct (s_resp (cfg B') run B' k' bno' g' m') as [[[q' rh] ck']|] eqn:E; [|destruct T].
    destruct (resp_spec _ _ _ _ _ _ _ _ _ _ E) as (pt' & _ & F' & G & _ & _ & _ & _ & _ & E5 & E6 & E7).
    destruct T as [T|[T|[]]]; [exfalso; rewrite E7 in T; unfold s_tag in T; congruence|].
    assert (T' := T). rewrite E6 in T. unfold s_biscuit in T.
    assert (X1 : NBk B' k' = NBk B k) by congruence. assert (X2 : s_biscuit_adata (e_alg q') (pkey B') (z_sidi rh) (z_sidr rh) = s_biscuit_adata g (pkey B) (w_sidi m) (w_sidr m)) by congruence.
    assert (X3 : s_pid (e_alg q') (e_pk q') = s_pid (e_alg q) (e_pk q)) by congruence. 
    assert (X4 : ck' = c0) by congruence. clear T. unfold s_biscuit_adata in X2.
    assert (Y1 : e_alg q' = g) by congruence. assert (Y2 : z_sidi rh = w_sidi m) by congruence.
    assert (Y3 : z_sidr rh = w_sidr m) by congruence. clear X2.
    assert (B' = B) by congruence. assert (k' = k) by congruence. subst B' k' c0.
    rewrite <- X3, F' in F. injection F as <-. assert (Hg : g' = g) by congruence. clear G. subst g'.
    exists run, bno', m', rh, ck', pt. split; [exact I|]. split; [exact E|].
    split; [rewrite E1; symmetry; exact T'|]. split; [auto|]. split; [auto|]. split; [exact Y1|].
    assert (W : w_biscuit m = z_biscuit rh) by (rewrite E1; symmetry; exact T').
    rewrite Y1, W in E2, E3. rewrite <- Y2, <- Y3 in E2, E3.
    assert (Z : chain_from g (s_ckmix g ck' (z_biscuit rh))
        [s_tag (s_key g (s_ckmix g ck' (z_biscuit rh))) (Lit []); z_sidi rh; z_sidr rh] =
      chain g (pkey B) (responder_items B q' m' rh run ++ [z_biscuit rh; z_auth rh; z_sidi rh; z_sidr rh])).
    { rewrite chain_app. fold (responder_items B q' m' rh run) in E5. rewrite <- E5. 
      unfold chain_from. cbn [fold_left]. rewrite E7. reflexivity. }
    rewrite Z in E2, E3. split; [exact E2|]. rewrite E3, <- chain_snoc, <- app_assoc. reflexivity.
  - exfalso. destruct (s_conf run A p m') as [[ic c]|] eqn:E; [|destruct T].
    destruct (conf_spec _ _ _ _ _ _ E) as (pt' & _ & _ & _ & _ & _ & E4 & _). destruct T as [T|[]].
    rewrite E4 in T. unfold s_tag in T. congruence.
  - exfalso. destruct (s_done (cfg B') B' k' g' m') as [[q' c]|] eqn:E; [|destruct T].
    destruct T as [T|[]]. unfold s_empty in T. congruence.
  - destruct T.
  - destruct T.
  - destruct T.
Qed.

Lemma responder_leak cfg tr g B q m rh run k bno c0 l : valid cfg tr ->
  In (EResp run B k bno g m) tr -> s_resp (cfg B) run B k bno g m = Some (q, rh, c0) ->
  ~ revealed tr (NBk B k) ->
  ~ biscuit_leak cfg tr g (pkey B) (responder_items B q m rh run ++ l).
Proof.
  intros V I E R (pre & post & run' & B' & k' & bno' & m' & q' & rh' & L & I' & P & R' & S).
  destruct (resp_spec _ _ _ _ _ _ _ _ _ _ S) as (pt & _ & _ & _ & _ & E1 & _ & _ & _ & E5 & _ & _).
  destruct (resp_spec _ _ _ _ _ _ _ _ _ _ E) as (pt' & _ & _ & _ & _ & E1' & _ & _ & _ & _ & _ & _).
  destruct (chain_inj _ _ _ _ _ _ E5) as (_ & _ & X). subst pre.
  unfold responder_items, hello_all, hello_items, answer_items in L. cbn [List.app] in L.
  assert (run = run') by congruence. subst run'.
  destruct (resp_unique _ _ _ _ _ _ _ _ _ _ _ _ _ V I I') as (<- & <- & _). exact (R R').
Qed.

Lemma responder_not_pub cfg tr B q m rh run l : 
  pk_safe tr q (NCoin run true) \/ psk_safe tr q ->
  ~ Forall (pub cfg tr) (responder_items B q m rh run ++ l).
Proof.
  intros C F. rewrite Forall_forall in F. destruct C as [(A & E & R1 & R2)|C].
  - apply (not_pub_shk cfg tr false (NStatic A) (NCoin run true)); auto. apply F.
    rewrite <- (eq_refl : pkey A = Pk false (Nm (NStatic A))), <- E. apply in_or_app. left. 
    unfold responder_items, hello_all, hello_items, answer_items.
    cbn [List.app]. do 15 right. left. reflexivity.
  - apply (not_pub_psk cfg tr q C). apply F. apply in_or_app. left. 
    unfold responder_items, hello_all, hello_items, answer_items.
    cbn [List.app]. do 7 right. left. reflexivity.
Qed.

Lemma responder_agrees cfg tr B k g m q ck :
  valid cfg tr -> (forall t, In t (ic_fields m) -> knows cfg tr t) -> s_done (cfg B) B k g m = Some (q, ck) ->
  ~ revealed tr (NBk B k) ->
  exists run bno m' rh c0, In (EResp run B k bno g m') tr /\ s_resp (cfg B) run B k bno g m' = Some (q, rh, c0) /\
    (pk_safe tr q (NCoin run true) \/ psk_safe tr q ->
     exists run0 A p, In (EConf run0 A p rh) tr /\ s_conf run0 A p rh = Some (m, ck) /\
       m' = fst (s_init run0 A p) /\ e_pk p = pkey B /\ e_pk q = pkey A /\ e_psk p = e_psk q /\ e_alg p = e_alg q).
Proof.
  intros V K D R. destruct (responder_biscuit _ _ _ _ _ _ _ _ V K D R) as (run & bno & m' & rh & c0 & pt & I & E & W1 & W2 & W3 & G & W4 & W5).
  exists run, bno, m', rh, c0. split; [exact I|]. split; [exact E|]. intros C.
  assert (KA : knows cfg tr (w_auth m)) by (apply K; do 3 right; left; reflexivity).
  rewrite W4 in KA. apply known_tag_made in KA; [|exact V|].
  2:{ apply key_not_pub; [exact V| | |now left].
      - apply responder_not_pub. exact C.
      - exact (responder_leak _ _ _ _ _ _ _ _ _ _ _ _ V I E R). }
  apply made_tag in KA. destruct KA as [N|[N|[N|N]]].
  - cbn in N. lia.
  - cbn in N. lia.
  - destruct N as (run' & B' & k' & bno' & m2 & q' & rh' & ck' & _ & _ & _ & L & _).
    apply (f_equal (@length term)) in L. cbn in L. lia.
  - destruct N as (run0 & A & p & m2 & ic & ck' & I' & S & G' & P & L & T).
    assert (L' : responder_items B q m' rh run ++ [z_biscuit rh] = initiator_items run0 A p m2 /\
                 z_auth rh = z_auth m2).
    { unfold responder_items, initiator_items, hello_all, hello_items, answer_items in *.
      cbn [List.app] in *. split; congruence. }
    destruct L' as [L1 L2]. destruct (items_agree _ _ _ _ _ _ _ _ _ L1) as (X & Q1 & Q2 & R1 & R2 & R3 & R4 & R5).
    assert (rh = m2). { apply rh_eq; auto. } subst m2.
    assert (Y : w_auth ic = w_auth m) by (rewrite T, W4; reflexivity).
    destruct (conf_spec _ _ _ _ _ _ S) as (_ & _ & _ & V1 & V2 & V3 & _).
    assert (ic = m) by (apply ic_eq; congruence). subst ic.
    assert (ck' = ck).
    { rewrite (conf_chain _ _ _ _ _ _ S), W5, <- G', P. f_equal. rewrite <- L1, <- app_assoc. reflexivity. }
    subst ck'. exists run0, A, p. rewrite G. auto 10.
Qed.

(** When [B] accepts an InitConf and its biscuit key is safe by then: the biscuit is one of its own. If the static
    key of the peer or the pre-shared key is safe as well, that peer has accepted the RespHello that goes
    with the biscuit, with the same messages, the same keys, and the same chaining key as result. *)
Theorem C91_responder_agreement cfg tr2 tr1 B k g m ctr :
  valid cfg (tr2 ++ EDone B k g m ctr :: tr1) -> ~ revealed tr1 (NBk B k) ->
  exists q ck run' m' rh, s_done (cfg B) B k g m = Some (q, ck) /\ answered cfg tr1 run' B k m' q rh /\
    (pk_safe tr1 q (NCoin run' true) \/ psk_safe tr1 q ->
     exists run A p, initiator_has tr1 run A p rh ck /\ m' = fst (s_init run A p) /\
       e_pk p = pkey B /\ e_pk q = pkey A /\ e_psk p = e_psk q /\ e_alg p = e_alg q).
Proof.
  intros V R. apply valid_suffix in V. destruct (valid_done _ _ _ _ _ _ _ V) as (V1 & K & q & ck & E).
  destruct (responder_agrees _ _ _ _ _ _ _ _ V1 K E R) as (run & bno & m' & rh & c0 & I & S & C).
  exists q, ck, run, m', rh. split; [exact E|]. split; [exists bno, g, c0; auto|].
  intros Hc. destruct (C Hc) as (run0 & A & p & I' & S' & X). exists run0, A, p. split; [|exact X].
  split; [exact I'|]. exists m. exact S'.
Qed.
Print Assumptions C91_responder_agreement.

Lemma pk_safe_before tr tr' p n : incl tr' tr -> pk_safe tr p n -> pk_safe tr' p n.
Proof. intros L (B & E & R1 & R2). exists B. unfold revealed in *. split; [exact E|]. split; intros X; [apply R1|apply R2]; apply L; exact X. Qed.
Lemma psk_safe_before tr tr' p : incl tr' tr -> psk_safe tr p -> psk_safe tr' p.
Proof. intros L (i & E & R). exists i. split; [exact E|]. intros X. apply R. apply L. exact X. Qed.
Lemma biscuits_safe_before tr tr' run p : incl tr' tr -> biscuits_safe tr run p -> biscuits_safe tr' run p.
Proof. intros L BS run' B k bno g m I P S R. exact (BS run' B k bno g m (L _ I) P S (L _ R)). Qed.

(** When [A] accepts EmptyData, under the same conditions: its peer has accepted the InitConf of [A] and has the
    same chaining key. *)
Theorem C91_confirmation cfg tr2 tr1 run A p m ctr d :
  valid cfg (tr2 ++ EFin run A p m ctr d :: tr1) ->
  pk_safe tr1 p (NCoin run false) \/ psk_safe tr1 p ->
  biscuits_safe tr1 run p ->
  exists ck ic B k q, initiator_has tr1 run A p m ck /\ s_conf run A p m = Some (ic, ck) /\
    responder_has cfg tr1 B k q ic ck /\
    e_pk p = pkey B /\ e_pk q = pkey A /\ e_psk q = e_psk p /\ e_alg q = e_alg p.
Proof.
  intros V C BS. apply valid_suffix in V. inversion V as [| | | | |tr run' A' p' m' ctr' d' ic ck pt V1 IC E KD O| |]; subst.
  destruct (valid_split cfg _ _ V1 IC) as (t2 & t0 & Et & V0).
  assert (L : incl t0 tr1). { rewrite Et. intros x X. apply in_or_app. right. right. exact X. }
  destruct (valid_conf _ _ _ _ _ _ V0) as (V0' & _ & K & _).
  destruct (initiator_agrees cfg t0 run A p m ic ck V0' K E) as (B & run' & k & bno & q & ck' & I & S & P1 & P2 & P3).
  { destruct C as [C|C]; [left; exact (pk_safe_before _ _ _ _ L C)|right; exact (psk_safe_before _ _ _ L C)]. }
  { exact (biscuits_safe_before _ _ _ _ L BS). }
  unfold sdec in O. destruct d as [| | | | | | | |x kd nd ad ptd]; try discriminate.
  destruct (_ && _ && _ && _) eqn:Eb in O; [|discriminate].
  apply andb_prop in Eb. destruct Eb as [Eb E4]. apply andb_prop in Eb. destruct Eb as [Eb E3].
  apply andb_prop in Eb. destruct Eb as [E1 E2]. apply term_eqb_true in E2, E3, E4.
  apply Bool.eqb_prop in E1. subst x kd nd ad. 
  assert (Ck := conf_chain _ _ _ _ _ _ E).
  apply known_tag_made in KD; [|exact V1|].
  2:{ rewrite Ck. apply key_not_pub; [exact V1| | |now right].
      - apply initiator_not_pub. exact C.
      - intros Lk. destruct (initiator_leak _ _ _ _ _ _ _ V1 Lk) as (r2 & B2 & k2 & b2 & m2 & I2 & Q & Sd & _ & R); [cbn; lia|].
        exact (BS _ _ _ _ _ _ I2 Q Sd R). }
  destruct KD as (e & Ie & T). destruct e as [r3 A3 p3|r3 B3 k3 b3 g3 m3|r3 A3 p3 m3|B3 k3 g3 m3 ctr3|r3 A3 p3 m3 c3 d3|n3|g3 c3 l3]; cbn [sealed] in T.
  - exfalso. destruct (s_init r3 A3 p3) as [m3 c3] eqn:E3. cbn [fst] in T.
    destruct (init_spec _ _ _ _ _ E3) as (_ & _ & _ & E4 & E5 & _). rewrite E4, E5 in T. unfold s_tag, s_key in T.
    destruct T as [T|[T|[]]]; (assert (X : s_hs_enc (e_alg p3) = s_res_enc (e_alg p)) by congruence; exact (hs_res _ _ X)).
  - exfalso. destruct (s_resp (cfg B3) r3 B3 k3 b3 g3 m3) as [[[q3 rh] c3]|] eqn:E3; [|destruct T].
    destruct (resp_spec _ _ _ _ _ _ _ _ _ _ E3) as (_ & _ & _ & _ & _ & _ & _ & _ & _ & _ & E6 & E7).
    destruct T as [T|[T|[]]].
    + rewrite E7 in T. unfold s_tag, s_key in T. assert (X : s_hs_enc g3 = s_res_enc (e_alg p)) by congruence. exact (hs_res _ _ X).
    + rewrite E6 in T. unfold s_biscuit in T. congruence.
  - exfalso. destruct (s_conf r3 A3 p3 m3) as [[ic3 c3]|] eqn:E3; [|destruct T].
    destruct (conf_spec _ _ _ _ _ _ E3) as (_ & _ & _ & _ & _ & _ & E4 & _). destruct T as [T|[]].
    rewrite E4 in T. unfold s_tag, s_key in T. assert (X : s_hs_enc (e_alg p3) = s_res_enc (e_alg p)) by congruence. exact (hs_res _ _ X).
  - destruct (s_done (cfg B3) B3 k3 g3 m3) as [[q3 c3]|] eqn:D; [|destruct T]. destruct T as [T|[]].
    unfold s_empty in T. assert (G : e_alg q3 = e_alg p) by congruence. assert (c3 = ck) by congruence. subst c3. clear T.
    destruct (done_spec _ _ _ _ _ _ _ D) as (n & b' & c0 & pt' & W1 & F & W2 & W3). cbn zeta in *.
    destruct (conf_spec _ _ _ _ _ _ E) as (_ & _ & _ & X1 & X2 & X3 & _ & _).
    assert (Y : w_biscuit m3 = z_biscuit m /\ w_sidi m3 = z_sidi m /\ w_sidr m3 = z_sidr m /\ w_auth m3 = w_auth ic).
    { rewrite W3 in Ck. unfold initiator_items, hello_all, hello_items, answer_items, conf_items, chain, chain_from in Ck.
      cbn [List.app fold_left] in Ck. unfold s_ckmix in Ck.
      repeat match goal with |- _ /\ _ => split end; congruence. }
    destruct Y as (Y1 & Y2 & Y3 & Y4).
    assert (m3 = ic) by (apply ic_eq; congruence). subst m3.
    destruct (resp_spec _ _ _ _ _ _ _ _ _ _ S) as (_ & _ & F' & G' & _ & _ & _ & _ & _ & _ & Z & _).
    rewrite Y1, Z in W1. unfold s_biscuit in W1.
    assert (NBk B k = NBk B3 k3) by congruence. assert (B3 = B) by congruence. assert (k3 = k) by congruence. subst B3 k3.
    assert (Q : s_pid (e_alg q) (e_pk q) = s_pid (e_alg q3) (e_pk q3)) by congruence.
    rewrite <- Q, F' in F. injection F as <-.
    exists ck, ic, B, k, q. split; [split; [exact IC|]; exists ic; exact E|]. split; [exact E|].
    split; [exists g3, ctr3; auto|]. auto.
  - destruct T.
  - destruct T.
  - destruct T.
Qed.
Print Assumptions C91_confirmation.

(** * C92: secrecy for the responder *)

(** Who has finished a handshake as responder with a safe biscuit key has keys that the attacker does not know, if
    the static key of the peer is safe or the pre-shared key is. *)
Theorem C92_responder_secrecy cfg tr B k q m ck :
  valid cfg tr -> responder_has cfg tr B k q m ck -> ~ revealed tr (NBk B k) ->
  exists run m' rh, answered cfg tr run B k m' q rh /\
    (pk_safe tr q (NCoin run true) \/ psk_safe tr q -> keys_secret cfg tr (e_alg q) ck).
Proof.
  intros V (g & ctr & I & D) R. destruct (valid_split cfg _ _ V I) as (t2 & t1 & Et & V1).
  destruct (valid_done _ _ _ _ _ _ _ V1) as (V1' & K & _).
  assert (L : incl t1 tr). { rewrite Et. intros x X. apply in_or_app. right. right. exact X. }
  destruct (responder_biscuit _ _ _ _ _ _ _ _ V1' K D) as (run & bno & m' & rh & c0 & pt & I' & E & _ & _ & _ & G & _ & W5).
  { intros X. apply R. apply L. exact X. }
  exists run, m', rh. split; [exists bno, g, c0; auto|]. intros C. rewrite W5, G.
  apply secret_of_not_pub; [exact V| |].
  - apply responder_not_pub. exact C.
  - exact (responder_leak _ _ _ _ _ _ _ _ _ _ _ _ V (L _ I') E R).
Qed.
Print Assumptions C92_responder_secrecy.

(** * C93: forward secrecy *)

Lemma kdec_own e s r : kdec e s (Ct e (Pk e s) r) = Shk e (Pk e s) r.
Proof. unfold kdec. rewrite term_eqb_refl. destruct e; reflexivity. Qed.

(** If the peer was authentic when the initiator accepted its RespHello, the keys stay secret when static and pre-shared keys are
    given to the attacker later, as long as the ephemeral key, the coins of its encapsulation and the one biscuit key
    are not. *)
Theorem C93_initiator_forward_secrecy cfg tr2 tr1 run A p m :
  let tr := tr2 ++ EConf run A p m :: tr1 in
  valid cfg tr -> pk_safe tr1 p (NCoin run false) \/ psk_safe tr1 p -> biscuits_safe tr1 run p ->
  exists ck B run' k q, initiator_has tr run A p m ck /\ e_pk p = pkey B /\
    answered cfg tr1 run' B k (fst (s_init run A p)) q m /\
    (~ revealed tr (NEsk run) -> ~ revealed tr (NCoin run' false) -> ~ revealed tr (NBk B k) ->
     keys_secret cfg tr (e_alg p) ck).
Proof.
  intros tr V C BS. pose proof (valid_suffix _ _ _ V) as V1.
  destruct (valid_conf _ _ _ _ _ _ V1) as (V1' & _ & K & ic & ck & E).
  destruct (initiator_agrees _ _ _ _ _ _ _ _ V1' K E C BS) as (B & run' & k & bno & q & ck' & I & S & P1 & P2 & P3).
  assert (IE : In (EConf run A p m) tr) by (apply in_or_app; right; left; reflexivity).
  assert (L : incl tr1 tr). { intros x X. apply in_or_app. right. right. exact X. }
  exists ck, B, run', k, q. split; [split; [exact IE|]; exists ic; exact E|]. split; [exact P1|].
  split; [exists bno, (e_alg p), ck'; auto|]. intros R1 R2 R3.
  rewrite (conf_chain _ _ _ _ _ _ E). 
  destruct (resp_spec _ _ _ _ _ _ _ _ _ _ S) as (_ & _ & _ & _ & _ & Z1 & _ & Z3 & _).
  apply secret_of_not_pub; [exact V| |].
  - intros F. rewrite Forall_forall in F.
    apply (not_pub_shk cfg tr true (NEsk run) (NCoin run' false)); auto. apply F. apply in_or_app. left.
    unfold initiator_items. apply in_or_app. right. apply in_or_app. left. unfold answer_items.
    do 3 right. left. rewrite Z3. change (y_epki (fst (s_init run A p))) with (Pk true (Nm (NEsk run))). apply kdec_own.
  - intros Lk. destruct (initiator_leak _ _ _ _ _ _ _ V Lk) as (r2 & B2 & k2 & b2 & m2 & I2 & Q & _ & Sr & R); [cbn; lia|].
    rewrite Z1 in Sr. assert (run' = r2) by congruence. subst r2.
    destruct (resp_unique _ _ _ _ _ _ _ _ _ _ _ _ _ V (L _ I) I2) as (<- & <- & _). exact (R3 R).
Qed.
Print Assumptions C93_initiator_forward_secrecy.

(** The same for the responder. *)
Theorem C93_responder_forward_secrecy cfg tr2 tr1 B k g m ctr :
  let tr := tr2 ++ EDone B k g m ctr :: tr1 in
  valid cfg tr -> ~ revealed tr (NBk B k) ->
  exists q ck run' m' rh, responder_has cfg tr B k q m ck /\ answered cfg tr1 run' B k m' q rh /\
    (pk_safe tr1 q (NCoin run' true) \/ psk_safe tr1 q ->
     exists run A p, initiator_has tr1 run A p rh ck /\ e_pk q = pkey A /\
       (~ revealed tr (NEsk run) -> ~ revealed tr (NCoin run' false) -> keys_secret cfg tr (e_alg q) ck)).
Proof.
  intros tr V R. pose proof (valid_suffix _ _ _ V) as V1.
  destruct (valid_done _ _ _ _ _ _ _ V1) as (V1' & K & q & ck & D).
  assert (IE : In (EDone B k g m ctr) tr) by (apply in_or_app; right; left; reflexivity).
  assert (L : incl tr1 tr). { intros x X. apply in_or_app. right. right. exact X. }
  assert (R1 : ~ revealed tr1 (NBk B k)) by (intros X; apply R; apply L; exact X).
  destruct (responder_agrees _ _ _ _ _ _ _ _ V1' K D R1) as (run' & bno & m' & rh & c0 & I & S & C).
  exists q, ck, run', m', rh. split; [exists g, ctr; auto|]. split; [exists bno, g, c0; auto|].
  intros Hc. destruct (C Hc) as (run & A & p & IC & E & M & P1 & P2 & P3 & P4).
  exists run, A, p. split; [split; [exact IC|]; exists m; exact E|]. split; [exact P2|]. intros R2 R3.
  rewrite <- P4, (conf_chain _ _ _ _ _ _ E).
  destruct (resp_spec _ _ _ _ _ _ _ _ _ _ S) as (_ & _ & _ & _ & _ & Z1 & _ & Z3 & _).
  apply secret_of_not_pub; [exact V| |].
  - intros F. rewrite Forall_forall in F.
    apply (not_pub_shk cfg tr true (NEsk run) (NCoin run' false)); auto. apply F. apply in_or_app. left.
    unfold initiator_items. apply in_or_app. right. apply in_or_app. left. unfold answer_items.
    do 3 right. left. rewrite Z3, M. change (y_epki (fst (s_init run A p))) with (Pk true (Nm (NEsk run))). apply kdec_own.
  - intros Lk. destruct (initiator_leak _ _ _ _ _ _ _ V Lk) as (r2 & B2 & k2 & b2 & m2 & I2 & Q & _ & Sr & Rk); [cbn; lia|].
    rewrite Z1 in Sr. assert (run' = r2) by congruence. subst r2.
    destruct (resp_unique _ _ _ _ _ _ _ _ _ _ _ _ _ V (L _ I) I2) as (<- & <- & _). exact (R Rk).
Qed.
Print Assumptions C93_responder_forward_secrecy.

(** * Honest runs exist *)

Definition resp_of (run B k : nat) (bno : bytes) (q : entry) (m : s_ih) : s_rh :=
  let g := e_alg q in
  let sidr := Nm (NSid run) in
  let ecti := Ct true (y_epki m) (Nm (NCoin run false)) in
  let scti := Ct false (e_pk q) (Nm (NCoin run true)) in
  let ck := chain g (pkey B) (hello_all (pkey B) m (kdec false (skey B) (y_sctr m)) (e_pk q) (e_psk q) ++
         answer_items (y_epki m) sidr (y_sidi m) (e_pk q) (Shk true (y_epki m) (Nm (NCoin run false))) ecti
           (Shk false (e_pk q) (Nm (NCoin run true))) scti) in
  let b := s_biscuit run B k bno q (y_sidi m) sidr ck in
  {| z_sidr := sidr; z_sidi := y_sidi m; z_ecti := ecti; z_scti := scti;
     z_auth := s_tag (s_key g (s_ckmix g ck b)) (Lit []); z_biscuit := b |}.

Lemma honest_resp peers run0 A p run B k bno q :
  e_pk p = pkey B -> e_pk q = pkey A -> e_psk q = e_psk p -> e_alg q = e_alg p ->
  s_find peers (s_pid (e_alg q) (e_pk q)) = Some q ->
  let m := fst (s_init run0 A p) in
  exists ck, s_resp peers run B k bno (e_alg p) m = Some (q, resp_of run B k bno q m, ck).
Proof.
  intros P1 P2 P3 P4 F m. destruct (s_init run0 A p) as [m0 ck] eqn:I. cbn [fst] in m. subst m.
  destruct (init_spec _ _ _ _ _ I) as (E1 & E2 & E3 & E4 & E5 & E6). cbn zeta in *.
  assert (E0 : kdec false (skey B) (y_sctr m0) = Shk false (e_pk p) (Nm (NCoin run0 false))).
  { rewrite E3, P1. apply kdec_own. }
  assert (O1 : forall ck5, ck5 = chain (e_alg p) (e_pk p) (hello_items (e_pk p) m0 (Shk false (e_pk p) (Nm (NCoin run0 false)))) ->
    s_open (e_alg p) ck5 (y_pidct m0) = Some (s_pid (e_alg p) (pkey A), s_ckmix (e_alg p) ck5 (y_pidct m0))).
  { intros c5 ->. rewrite E4. apply open_tag. }
  assert (O2 : forall ck8, ck8 = chain (e_alg p) (e_pk p) (hello_items (e_pk p) m0 (Shk false (e_pk p) (Nm (NCoin run0 false))) ++
      [y_pidct m0; pkey A; e_psk p]) ->
    s_open (e_alg p) ck8 (y_auth m0) = Some (Lit [], s_ckmix (e_alg p) ck8 (y_auth m0))).
  { intros c8 ->. rewrite E5. apply open_tag. }
  assert (X : halg_eqb (e_alg p) (e_alg p) = true) by now apply halg_eqb_eq.
  eexists. unfold s_resp. rewrite E0, <- P1, O1 by reflexivity.
  rewrite <- P2, <- P4, F, P2, P3, P4, O2 by reflexivity. rewrite X. unfold s_seal, resp_of.
  rewrite E0, P2, P3, P4, <- P1. reflexivity.
Qed.

Lemma honest_conf run A p rh pt : 
  z_sidi rh = Nm (NSid run) ->
  z_auth rh = s_tag (s_key (e_alg p) (chain (e_alg p) (e_pk p) (initiator_items run A p rh))) pt ->
  exists ic ck, s_conf run A p rh = Some (ic, ck).
Proof.
  intros E1 E2. unfold s_conf. rewrite E1, term_eqb_refl.
  destruct (s_init run A p) as [m0 ck0] eqn:I. 
  destruct (init_spec _ _ _ _ _ I) as (_ & _ & _ & _ & _ & E6). cbn [snd].
  match goal with |- context [s_open _ ?c (z_auth rh)] =>
    assert (X : c = chain (e_alg p) (e_pk p) (initiator_items run A p rh)) end.
  { rewrite E6. unfold initiator_items. rewrite I, E1. reflexivity. }
  rewrite X, E2, open_tag. unfold s_seal. eauto.
Qed.

(** Two agents that have each other as peers, with the same pre-shared key and hash function, and whose messages
    are delivered: both finish and have the same chaining key. *)
Theorem C91_honest_run cfg tr A B p q run run' k bno :
  valid cfg tr -> fresh run tr -> fresh run' tr -> run <> run' ->
  In p (cfg A) -> e_pk p = pkey B -> e_pk q = pkey A -> e_psk q = e_psk p -> e_alg q = e_alg p ->
  s_find (cfg B) (s_pid (e_alg q) (e_pk q)) = Some q ->
  exists rh ic ck ctr d,
    let tr' := EFin run A p rh ctr d :: EDone B k (e_alg p) ic ctr :: EConf run A p rh ::
               EResp run' B k bno (e_alg p) (fst (s_init run A p)) :: EInit run A p :: tr in
    valid cfg tr' /\ initiator_has tr' run A p rh ck /\ responder_has cfg tr' B k q ic ck /\
    answered cfg tr' run' B k (fst (s_init run A p)) q rh /\ s_conf run A p rh = Some (ic, ck).
Proof.
  intros V F1 F2 NE Ip P1 P2 P3 P4 F.
  destruct (honest_resp (cfg B) run A p run' B k bno q P1 P2 P3 P4 F) as (c0 & S). cbn zeta in S.
  set (m := fst (s_init run A p)) in *. set (rh := resp_of run' B k bno q m) in *.
  assert (V1 : valid cfg (EInit run A p :: tr)) by (apply v_init; auto).
  assert (V2 : valid cfg (EResp run' B k bno (e_alg p) m :: EInit run A p :: tr)).
  { eapply v_resp; [exact V1| |intros t T; eapply k_sent; [left; reflexivity|exact T]|exact S].
    split.
    - intros A0 p0 [X|X]; [congruence|]. exact (proj1 F2 _ _ X).
    - intros B0 k0 b0 g0 m0 [X|X]; [congruence|]. exact (proj2 F2 _ _ _ _ _ X). }
  destruct (resp_spec _ _ _ _ _ _ _ _ _ _ S) as (pt & _ & _ & _ & _ & Z1 & Z2 & Z3 & Z4 & Z5 & Z6 & Z7).
  fold (responder_items B q m rh run') in Z5.
  assert (It : responder_items B q m rh run' ++ [z_biscuit rh] = initiator_items run A p rh).
  { assert (K1 : kdec false (skey B) (y_sctr m) = Shk false (pkey B) (Nm (NCoin run false))).
    { change (y_sctr m) with (Ct false (e_pk p) (Nm (NCoin run false))). rewrite P1. apply kdec_own. }
    assert (K2 : kdec true (Nm (NEsk run)) (z_ecti rh) = Shk true (y_epki m) (Nm (NCoin run' false))).
    { rewrite Z3. apply kdec_own. }
    assert (K3 : kdec false (skey A) (z_scti rh) = Shk false (pkey A) (Nm (NCoin run' true))).
    { rewrite Z4, P2. apply kdec_own. }
    unfold responder_items, initiator_items, hello_all, hello_items. rewrite K1, K2, K3, P1, P2, P3.
    fold m. rewrite <- !app_assoc. reflexivity. }
  assert (Ck : s_ckmix (e_alg p) c0 (z_biscuit rh) = chain (e_alg p) (e_pk p) (initiator_items run A p rh)).
  { rewrite <- It, Z5, P1, chain_snoc. reflexivity. }
  rewrite Ck in Z7.
  destruct (honest_conf run A p rh (Lit [])) as (ic & ck & E); [rewrite Z2; reflexivity|exact Z7|].
  assert (V3 : valid cfg (EConf run A p rh :: EResp run' B k bno (e_alg p) m :: EInit run A p :: tr)).
  { eapply v_conf; [exact V2|right; left; reflexivity| |exact E].
    intros t T. eapply k_sent; [left; reflexivity|]. cbn [sent]. rewrite S. exact T. }
  destruct (conf_spec _ _ _ _ _ _ E) as (pt' & Y1 & Y2 & Y3 & Y4 & Y5 & Y6 & Y7). cbn zeta in Y7.
  fold (initiator_items run A p rh) in Y6, Y7.
  assert (D : s_done (cfg B) B k (e_alg p) ic = Some (q, ck)).
  { unfold s_done, s_unbiscuit. rewrite Y3, Y4, Y5, Z6. unfold s_biscuit at 1. unfold s_biscuit at 1.
    unfold sdec. rewrite P4, !term_eqb_refl. cbn [Bool.eqb andb]. rewrite <- P4, F.
    unfold s_seal. rewrite P4, <- Z6, Ck, <- Z7.
    match goal with |- context [s_open _ ?c (w_auth ic)] =>
      assert (X : c = chain (e_alg p) (e_pk p) (initiator_items run A p rh ++ [z_auth rh; z_sidi rh; z_sidr rh])) end.
    { rewrite chain_app. reflexivity. }
    rewrite X, Y6, open_tag, <- Y6. f_equal. f_equal. rewrite Y7. unfold conf_items.
    change [z_auth rh; z_sidi rh; z_sidr rh; w_auth ic] with ([z_auth rh; z_sidi rh; z_sidr rh] ++ [w_auth ic]).
    rewrite app_assoc, chain_snoc. reflexivity. }
  set (ctr := zeros 8).
  assert (V4 : valid cfg (EDone B k (e_alg p) ic ctr :: EConf run A p rh :: EResp run' B k bno (e_alg p) m :: EInit run A p :: tr)).
  { eapply v_done; [exact V3| |exact D].
    intros t T. eapply k_sent; [left; reflexivity|]. cbn [sent]. rewrite E. exact T. }
  exists rh, ic, ck, ctr, (s_empty (e_alg p) ck ctr). cbn zeta. split; [|split].
  - eapply v_fin; [exact V4|right; left; reflexivity|exact E| |].
    + eapply k_sent; [left; reflexivity|]. cbn [sent]. rewrite D, P4. do 2 right. left. reflexivity.
    + unfold s_empty, sdec. rewrite !term_eqb_refl. reflexivity.
  - split; [do 2 right; left; reflexivity|]. exists ic. exact E.
  - split; [|split; [|exact E]].
    + exists (e_alg p), ctr. split; [right; left; reflexivity|exact D].
    + exists bno, (e_alg p), c0. split; [do 3 right; left; reflexivity|exact S].
Qed.
Print Assumptions C91_honest_run.

(** * What happens without the conditions *)

Lemma knows_root cfg tr g : knows cfg tr (s_root g).
Proof. apply k_hash; apply k_lit. Qed.
Lemma knows_label cfg tr g l : knows cfg tr (H g (s_root g) (Lit l)).
Proof. apply k_hash; [apply knows_root|apply k_lit]. Qed.
Lemma knows_extract cfg tr g l : knows cfg tr (H g (s_ckextract g) (Lit l)).
Proof. apply k_hash; [apply knows_label|apply k_lit]. Qed.
Lemma knows_ckmix cfg tr g ck x : knows cfg tr ck -> knows cfg tr x -> knows cfg tr (s_ckmix g ck x).
Proof. intros K1 K2. apply k_hash; [|exact K2]. apply k_hash; [exact K1|]. apply knows_extract. Qed.
Lemma knows_tag cfg tr g ck pt : knows cfg tr ck -> knows cfg tr pt -> knows cfg tr (s_tag (s_key g ck) pt).
Proof. intros K1 K2. apply k_enc; [|apply k_lit|apply k_lit|exact K2]. apply k_hash; [exact K1|]. apply knows_extract. Qed.
Lemma knows_ds cfg tr g ds : knows cfg tr (s_ds g ds).
Proof.
  assert (U : knows cfg tr (s_user g)) by apply knows_extract.
  destruct ds as [|ns labels]; unfold s_ds.
  - apply k_hash; [|apply k_lit]. apply k_hash; [exact U|apply k_lit].
  - assert (G : forall l k, knows cfg tr k -> knows cfg tr (fold_left (fun k l => H g k (Lit l)) l k)).
    { clear. induction l as [|y l IH]; intros k D; [exact D|]. cbn [fold_left]. apply IH. apply k_hash; [exact D|apply k_lit]. }
    apply G. apply k_hash; [exact U|apply k_lit].
Qed.

(** The condition on the biscuit key is needed: who has a biscuit key of [B] can complete a handshake with [B] as any of
    its peers, whatever else is safe, and knows the resulting keys. *)
Theorem C92_biscuit_key_impersonates cfg tr B k q ctr :
  valid cfg tr -> revealed tr (NBk B k) -> knows cfg tr (e_pk q) ->
  s_find (cfg B) (s_pid (e_alg q) (e_pk q)) = Some q ->
  exists m ck, let tr' := EDone B k (e_alg q) m ctr :: tr in
    valid cfg tr' /\ responder_has cfg tr' B k q m ck /\
    knows cfg tr ck /\ forall ds, knows cfg tr (s_osk (e_alg q) ck (s_ds (e_alg q) ds)).
Proof.
  intros V R Kp F. set (g := e_alg q) in *.
  assert (Kb : knows cfg tr (Nm (NBk B k))). { apply k_sent with (EReveal (NBk B k)); [exact R|left; reflexivity]. }
  set (b := Aead true (Nm (NBk B k)) (Nm (NAdv 0)) (s_biscuit_adata g (pkey B) (Lit []) (Lit []))
              (Pair (s_pid g (e_pk q)) (Pair (Lit []) (Lit [])))).
  assert (K1 : knows cfg tr b).
  { apply k_enc; [exact Kb|apply k_adv| |].
    - do 3 (apply k_hash; [|auto using k_lit, k_public]). apply knows_label.
    - apply k_pair; [|apply k_pair; apply k_lit]. apply k_hash; [apply knows_label|exact Kp]. }
  set (c1 := s_ckmix g (Lit []) b). 
  assert (K2 : knows cfg tr c1) by (apply knows_ckmix; [apply k_lit|exact K1]).
  set (c2 := chain_from g c1 [s_tag (s_key g c1) (Lit []); Lit []; Lit []]).
  assert (K3 : knows cfg tr c2).
  { unfold c2, chain_from. cbn [fold_left]. 
    apply knows_ckmix; [|apply k_lit]. apply knows_ckmix; [|apply k_lit]. apply knows_ckmix; [exact K2|].
    apply knows_tag; [exact K2|apply k_lit]. }
  set (a := s_tag (s_key g c2) (Lit [])).
  assert (K4 : knows cfg tr a) by (apply knows_tag; [exact K3|apply k_lit]).
  set (m := {| w_sidi := Lit []; w_sidr := Lit []; w_biscuit := b; w_auth := a |}).
  assert (K5 : knows cfg tr (s_ckmix g c2 a)) by (apply knows_ckmix; assumption).
  assert (D : s_done (cfg B) B k g m = Some (q, s_ckmix g c2 a)).
  { unfold s_done, s_unbiscuit. cbn [w_biscuit w_sidi w_sidr w_auth m]. unfold b at 1, b at 1. unfold sdec.
    rewrite !term_eqb_refl. cbn [Bool.eqb andb]. rewrite F. fold g. unfold s_seal.
    assert (X : s_open g c2 a = Some (Lit [], s_ckmix g c2 a)) by apply open_tag.
    unfold c2, c1, chain_from in X. cbn [fold_left] in X. rewrite X. reflexivity. }
  exists m, (s_ckmix g c2 a). cbn zeta. split; [|split; [|split]].
  - eapply v_done; [exact V| |exact D]. intros t T. unfold ic_fields in T. cbn [m w_sidi w_sidr w_biscuit w_auth] in T.
    destruct T as [T|[T|[T|[T|[]]]]]; subst t; auto using k_lit.
  - exists g, ctr. split; [left; reflexivity|exact D].
  - exact K5.
  - intros ds. apply k_hash; [exact K5|apply knows_ds].
Qed.
Print Assumptions C92_biscuit_key_impersonates.

(** * Examples *)

(** Two agents with each other as peers and a secret pre-shared key. *)
Definition ex_entry (other : nat) : entry := {| e_pk := pkey other; e_psk := Nm (NPsk 0); e_alg := Shake |}.
Definition ex_cfg (n : nat) : list entry :=
  match n with 0 => [ex_entry 1] | 1 => [ex_entry 0] | _ => [] end.

(** A complete exchange meets the conditions of the theorems on secrecy and on agreement; the later loss of all static
    and pre-shared keys does not harm it. *)
Example C93_example : exists tr rh ic ck,
  valid ex_cfg tr /\ In (EReveal (NStatic 0)) tr /\ In (EReveal (NStatic 1)) tr /\ In (EReveal (NPsk 0)) tr /\
  initiator_has tr 0 0 (ex_entry 1) rh ck /\ responder_has ex_cfg tr 1 0 (ex_entry 0) ic ck /\
  keys_secret ex_cfg tr Shake ck.
Proof.
  assert (F : s_find (ex_cfg 1) (s_pid (e_alg (ex_entry 0)) (e_pk (ex_entry 0))) = Some (ex_entry 0)).
  { change (ex_cfg 1) with [ex_entry 0]. unfold s_find. cbn [find]. rewrite term_eqb_refl. reflexivity. }
  destruct (C91_honest_run ex_cfg [] 0 1 (ex_entry 1) (ex_entry 0) 0 1 0 []) as (rh & ic & ck & ctr & d & V & I1 & I2 & _);
    try exact F; try reflexivity; try (split; intros; intros []); try (left; reflexivity); try discriminate.
  { apply v_nil. }
  match type of V with valid _ ?t => set (t0 := t) in * end.
  set (tr := [EReveal (NStatic 0); EReveal (NStatic 1); EReveal (NPsk 0)] ++ t0).
  assert (V' : valid ex_cfg tr) by (do 3 apply v_reveal; exact V).
  exists tr, rh, ic, ck. split; [exact V'|]. split; [now left|]. split; [right; now left|]. split; [right; right; now left|].
  assert (L : incl t0 tr) by (intros x X; apply in_or_app; now right).
  destruct I1 as [I1 (ic' & E)]. destruct I2 as (g & c & I2 & D).
  split; [split; [apply L; exact I1|]; exists ic'; exact E|]. split; [exists g, c; split; [apply L; exact I2|exact D]|].
  set (u := [EResp 1 1 0 [] Shake (fst (s_init 0 0 (ex_entry 1))); EInit 0 0 (ex_entry 1)]).
  assert (ET : tr = (([EReveal (NStatic 0); EReveal (NStatic 1); EReveal (NPsk 0)] ++ 
      [EFin 0 0 (ex_entry 1) rh ctr d; EDone 1 0 Shake ic ctr]) ++ EConf 0 0 (ex_entry 1) rh :: u)%list) by reflexivity.
  rewrite ET in V'. assert (N : forall n, ~ revealed u n) by (intros n [X|[X|[]]]; discriminate X).
  destruct (C93_initiator_forward_secrecy _ _ _ _ _ _ _ V') as (ck' & B & run' & k & q & (_ & ic2 & E') & P & (b2 & g2 & c2 & I & _) & S).
  - right. exists 0. split; [reflexivity|]. apply N.
  - intros r B k b g' m _ _ _. apply N.
  - rewrite <- ET in S. assert (ck' = ck) by congruence. subst ck'.
    assert (Q : forall n, n <> NStatic 0 -> n <> NStatic 1 -> n <> NPsk 0 -> ~ revealed tr n).
    { intros n N0 N1 N2 X. unfold revealed, tr, t0 in X. cbn [List.app] in X.
      repeat (destruct X as [X|X]; [congruence|]). exact X. }
    apply S; apply Q; discriminate.
Qed.
