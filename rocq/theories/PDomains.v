(** C49: domain separation.  Every key and identifier is hashed under the label of its purpose. *)
From Verif Require Import Base ConstTime Prims HashDomains Wire Server Protocol Wp Inv Rules Calls PollRules System Trans Spec Transcript Demo PSafety PReplay PNotice Forward PRetransmit PCookie PWire PHandshake.
From Coq Require Strings.String.
Import (notations) Coq.Strings.String.
Local Open Scope m_scope.

(** * Labels *)

(** Identities of peers, in the vocabulary of [Spec.v]. *)
Theorem C49_peer_ids : forall P a pk,
  peer_id P a pk = khash P a (domain P a ["peer id"%string]) pk.
Proof. reflexivity. Qed.
Print Assumptions C49_peer_ids.

(** The hash evaluations behind the value of a domain. *)
Definition domain_calls (P : prims) (a : halg) (l : list String.string) : list hash_call :=
  chain P a (zeros 32) (version_name a :: map str l).

Lemma str_inj s t : str s = str t -> s = t.
Proof.
  revert t. unfold str. induction s as [|x s IH]; intros [|y t]; cbn; try discriminate; auto.
  intros H. injection H as Hx Ht. f_equal; [|now apply IH].
  rewrite <- (Ascii.ascii_of_byte_of_ascii x), <- (Ascii.ascii_of_byte_of_ascii y). now rewrite Hx.
Qed.
Lemma map_str_inj l : forall l', map str l = map str l' -> l = l'.
Proof.
  induction l as [|x l IH]; intros [|y l']; cbn; try discriminate; auto.
  intros H. injection H as Hx Hl. apply str_inj in Hx. subst. f_equal. now apply IH.
Qed.

(** Two paths of labels give the same value only if they are the same path in the same version
    of the protocol, or the very calls that computed them collide or yield the all-zero root. *)
Theorem C49_domains_separate : forall P a l a' l',
  domain P a l = domain P a' l' ->
  (a = a' /\ l = l') \/
  collide P (domain_calls P a l) (domain_calls P a' l') \/
  hits_zero P (domain_calls P a l) \/ hits_zero P (domain_calls P a' l').
Proof.
  intros P a l a' l' E.
  destruct (chain_inj P a a' (version_name a :: map str l) (version_name a' :: map str l') E)
    as [[El Ea]|K]; [left|right; exact K].
  split; [now apply Ea|]. injection El as _ El. now apply map_str_inj.
Qed.
Print Assumptions C49_domains_separate.

(** The purposes are told apart: in one version of the protocol, no two of these paths agree. *)
Definition purposes : list (list String.string) :=
  [["mac"]; ["cookie"]; ["cookie-value"]; ["cookie-key"]; ["peer id"]; ["biscuit additional data"];
   ["chaining key init"];
   ["chaining key extract"; "mix"]; ["chaining key extract"; "handshake encryption"];
   ["chaining key extract"; "initiator handshake encryption"];
   ["chaining key extract"; "responder handshake encryption"];
   ["chaining key extract"; "user"; "rosenpass.eu"; "wireguard psk"]]%string.
Lemma purposes_nodup : NoDup purposes.
Proof.
  unfold purposes. repeat (constructor; [cbn; intuition discriminate|]). constructor.
Qed.

(** * The keys of a session *)

Definition ini_key (P : prims) (a : halg) (ck : bytes) : bytes :=
  khash P a ck (domain P a ["chaining key extract"; "initiator handshake encryption"]%string).
Definition res_key (P : prims) (a : halg) (ck : bytes) : bytes :=
  khash P a ck (domain P a ["chaining key extract"; "responder handshake encryption"]%string).

Lemma some_inj {A} (a b : A) : Some a = Some b -> a = b.
Proof. congruence. Qed.

Section Keyed.
Context (P : prims).

(** The transport keys of a session follow from its chaining key and role. *)
Definition keyed (x : peer) : Prop :=
  (forall h, p_handshake x = Some h -> hc_alg (hs_cor h) = p_alg x) /\
  (forall u, p_session x = Some u ->
     se_alg u = p_alg x /\
     match se_role u with
     | Initiator => se_txkm u = ini_key P (p_alg x) (se_ck u) /\ se_txkt u = res_key P (p_alg x) (se_ck u)
     | Responder => se_txkm u = res_key P (p_alg x) (se_ck u) /\ se_txkt u = ini_key P (p_alg x) (se_ck u)
     end).
Definition all_keyed (s : srv) : Prop := forall p x, pe s p = Some x -> keyed x.

Lemma keyed_rel s s' p x' f : all_keyed s -> st_rel s s' p x' f -> keyed x' -> all_keyed s'.
Proof.
  intros K R Kx q y Hy. rewrite (sr_pe _ _ _ _ _ R) in Hy.
  destruct (Nat.eqb p q); [injection Hy as <-; exact Kx|]. eapply K; eauto.
Qed.
Lemma keyed_with s p x x' : all_keyed s -> pe s p = Some x -> keyed x' -> all_keyed (with_peer p x' s).
Proof. intros K X Kx. eapply keyed_rel; [exact K|eapply with_peer_rel, X|exact Kx]. Qed.
Lemma keyed_peers s s' : s_peers s' = s_peers s -> all_keyed s -> all_keyed s'.
Proof. intros E K p x H. unfold pe in H. rewrite E in H. eapply K; eauto. Qed.

(** Only the handshake and the session of a peer matter. *)
Lemma keyed_ext x y : p_alg y = p_alg x ->
  (forall h, p_handshake y = Some h -> exists h0, p_handshake x = Some h0 /\ hc_alg (hs_cor h) = hc_alg (hs_cor h0)) ->
  (forall u, p_session y = Some u -> exists u0, p_session x = Some u0 /\ se_alg u = se_alg u0 /\
     se_role u = se_role u0 /\ se_ck u = se_ck u0 /\ se_txkm u = se_txkm u0 /\ se_txkt u = se_txkt u0) ->
  keyed x -> keyed y.
Proof.
  intros Ea Eh Eu [Kh Ku]. split.
  - intros h H. destruct (Eh h H) as (h0 & H0 & ->). rewrite Ea. now apply Kh.
  - intros u U. destruct (Eu u U) as (u0 & U0 & E1 & E2 & E3 & E4 & E5).
    rewrite E1, E2, E3, E4, E5, Ea. now apply Ku.
Qed.
Ltac kext := eapply keyed_ext; [| | |eassumption]; cbn;
  [reflexivity|intros ? ?; first [discriminate|eexists; split; eauto]
  |intros ? ?; first [discriminate|eexists; split; [eassumption|repeat split]]].

Lemma keyed_drop_hs now x : keyed x -> keyed (drop_hs now x).
Proof. intros K. unfold drop_hs. destruct (hs_dead now x); auto. kext. Qed.

Lemma keyed_ic now x bno core : hc_alg core = p_alg x -> keyed (ic_peer P now x bno core).
Proof.
  intros E. split; cbn; [discriminate|]. intros u [= <-]. cbn. rewrite E. repeat split.
Qed.

Lemma keyed_ic_failed s s' ic a : length (ic_biscuit ic) = 116 ->
  all_keyed s -> ic_failed P s ic a s' -> all_keyed s'.
Proof.
  intros L K [[-> _]|(p & x & bno & core & q & A & N & E & R)]; auto.
  assert (pe s p = Some x) as X by (eapply ic_accept_bno; eauto).
  eapply keyed_rel; [exact K|exact R|]. pose proof (K p x X) as Kx. kext.
Qed.

Lemma keyed_msgstep now c rx tx s s' r : inv P s -> msgstep P now c rx tx s s' r ->
  all_keyed s -> all_keyed s'.
Proof.
  intros I M K.
  destruct M as [e|q x ck a e FT L T|q x ck FT L T CS
    |q x h' ic core s3 FT L Hi Hp Hh Hs Hn Hc CS R'
    |q x h' ic core s3 FT L Hi Hp Hh Hs Hn Hc CS R'
    |q x k' FT L EK Hp Hk Hm CS
    |e s3 s2 FT L EK F1 F2 K1 K2
    |u0 a q x bno core s3 e FT L EK HA K0 K1 HI SF R'
    |u0 q x bno core s3 s2 FT L EK HA K0 K1 HI SF R' CS R2
    |q x h u FT L Hi Hp Hh Hs Hn Hu CS Hc D
    |q x h u s1 pt FT L Hi Hp Hh Hs Hn Hu CS Hc D R'
    |q x h mac v FT L Hi Hp Hd Hh Hm D
    |q x h mac v FT L Hi Hp Hd Hh Hm D]; auto.
  - eapply keyed_peers; [|exact K]. apply after_biscuit_frame.
  - eapply keyed_peers; [|exact K]. apply after_biscuit_frame.
  - eapply keyed_rel; [exact K|exact R'|].
    destruct (handle_rh_compute_sidi P s h' _ ic core Hc) as (_ & _ & Ea & _).
    pose proof (K q x Hp) as [Kh _]. pose proof (Kh h' Hh) as Eh. split.
    + intros h E. rewrite <- (some_inj _ _ E). exact Eh.
    + intros u [= <-]. cbn. rewrite Ea, Eh. repeat split.
  - eapply keyed_rel; [exact K|exact R'|].
    destruct (handle_rh_compute_sidi P s h' _ ic core Hc) as (_ & _ & Ea & _).
    pose proof (K q x Hp) as [Kh _]. pose proof (Kh h' Hh) as Eh. split.
    + intros h E. rewrite <- (some_inj _ _ E). exact Eh.
    + intros u [= <-]. cbn. rewrite Ea, Eh. repeat split.
  - assert (length (ic_biscuit (parse_ic (env_payload IC_LEN rx))) = 116) as Lb by apply (wf_rx_ic rx L).
    eapply keyed_ic_failed; [exact Lb| |exact F2]. eapply keyed_ic_failed; [exact Lb|exact K|exact F1].
  - assert (length (ic_biscuit (parse_ic (env_payload IC_LEN rx))) = 116) as Lb by apply (wf_rx_ic rx L).
    eapply keyed_rel; [|exact R'|].
    + destruct HA as [[_ ->]|[_ F]]; [exact K|]. eapply keyed_ic_failed; eauto.
    + apply keyed_ic. eapply ic_accept_bno; eauto.
  - assert (length (ic_biscuit (parse_ic (env_payload IC_LEN rx))) = 116) as Lb by apply (wf_rx_ic rx L).
    assert (keyed (ic_peer P now x bno core)) as Ki by (apply keyed_ic; eapply ic_accept_bno; eauto).
    eapply keyed_rel; [|exact R2|].
    + eapply keyed_rel; [|exact R'|exact Ki].
      destruct HA as [[_ ->]|[_ F]]; [exact K|]. eapply keyed_ic_failed; eauto.
    + destruct Ki as [_ Ku]. split; [discriminate|exact Ku].
  - eapply keyed_with; [exact K|exact Hp|]. destruct (K q x Hp) as [Kh Ku]. split; [exact Kh|].
    intros v E. injection E as <-. exact (Ku u Hu).
  - eapply keyed_rel; [exact K|exact R'|]. destruct (K q x Hp) as [Kh Ku]. split; [discriminate|].
    intros v E. injection E as <-. exact (Ku u Hu).
  - eapply keyed_with; [exact K|exact Hp|]. destruct (K q x Hp) as [Kh Ku]. split; [|exact Ku].
    intros v0 E. injection E as <-. exact (Kh h Hh).
  - eapply keyed_with; [exact K|exact Hp|]. destruct (K q x Hp) as [Kh Ku]. split; [|exact Ku].
    intros v0 E. injection E as <-. exact (Kh h Hh).
Qed.

Lemma keyed_step c s s' r : inv P s -> step P c s s' r -> all_keyed s -> all_keyed s'.
Proof.
  intros I S K.
  destruct S as [psk pk a ds Eo|psk pk a ds Eo|p tx q Eo|p tx x s1 Eo X Hc R
    |rx tx s1 r Eo M|rx tx host s1 r Eo M|s1 r Eo M|p tx r Eo|p r Eo]; auto.
  - intros q y Hy. unfold pe in Hy. cbn [s_peers set_peers] in Hy.
    destruct (Nat.lt_ge_cases q (length (s_peers s))) as [Lq|Lq].
    + rewrite nth_error_app1 in Hy by exact Lq. eapply K; eauto.
    + rewrite nth_error_app2 in Hy by exact Lq.
      destruct (q - length (s_peers s)) as [|n]; cbn in Hy; [|destruct n; discriminate].
      injection Hy as <-. split; cbn; discriminate.
  - eapply keyed_rel; [exact K|exact R|]. pose proof (K p x X) as [_ Ku]. split; [|exact Ku].
    intros h E. rewrite <- (some_inj _ _ E). reflexivity.
  - eapply keyed_msgstep; eauto.
  - destruct M as [e|s1 r F M|s1 r F L Hc M|e F|i l F L El Hc]; auto.
    + eapply keyed_msgstep; eauto.
    + eapply keyed_msgstep; [|exact M|]; [apply cs_choice_good, I|].
      eapply keyed_peers; [|exact K]. apply cs_choice_frame.
    + eapply keyed_peers; [|exact K]. apply cs_choice_frame.
    + eapply keyed_peers; [|exact K]. apply cs_choice_frame.
  - destruct (pollstep_pscan P _ _ _ _ _ I M) as (s2 & -> & Sc).
    eapply keyed_peers with (s := s2); [reflexivity|].
    refine (pscan_ind_inv P _ _ all_keyed _ _ _ _ _ _ Sc _).
    + intros t p x t' r' It X PP Kt. pose proof (keyed_drop_hs (c_now c) x (Kt p x X)) as Kd.
      destruct PP as [t' E R|t' E R|t' E R|t' E R _]; (eapply keyed_rel; [exact Kt|exact R|]).
      * kext.
      * kext.
      * unfold retried. destruct (p_handshake (drop_hs (c_now c) x)) eqn:Eh; [|exact Kd].
        eapply keyed_ext; [| | |exact Kd]; cbn; auto.
        -- intros h [= <-]. eexists. split; [exact Eh|]. reflexivity.
        -- intros u U. exists u. repeat split; auto.
      * unfold drop_known. destruct (known_dead _ _); [|exact Kd]. kext.
    + eapply keyed_peers; [|exact K]. apply erase_keys_frame.
Qed.

Lemma reachable_keyed s : reachable P s -> all_keyed s.
Proof.
  intros (s0 & h & I0 & R).
  refine (run_if_ind_inv P (fun _ _ => True) all_keyed _ s0 h s (initial_inv P _ I0) (run_run_if P _ _ _ R) _).
  - intros c t t' r It _ _ S. now apply keyed_step with (r := r) (c := c).
  - intros p x X. destruct I0 as (sk & pk & b0 & b1 & k0 & k1 & hk & ->). destruct p; discriminate.
Qed.
End Keyed.

(** In every reachable server, the two transport keys of a session are the keys of the two
    directions, by the role in the session, in the version configured for the peer; the output
    key is derived under the "user" label and the configured labels. *)
Theorem C49_session_keys : forall P s p x u,
  reachable P s -> nth_error (s_peers s) p = Some x -> p_session x = Some u ->
  se_alg u = p_alg x /\
  (se_role u = Initiator ->
     se_txkm u = ini_key P (p_alg x) (se_ck u) /\ se_txkt u = res_key P (p_alg x) (se_ck u)) /\
  (se_role u = Responder ->
     se_txkm u = res_key P (p_alg x) (se_ck u) /\ se_txkt u = ini_key P (p_alg x) (se_ck u)) /\
  (forall c, c_op c = OOsk p -> exec P c s =
     (s, Ok (RKey (khash P (p_alg x) (se_ck u)
        (hashed P (p_alg x) (domain P (p_alg x) ["chaining key extract"; "user"]%string)
                (ds_labels (p_ds x))))))).
Proof.
  intros P s p x u R X U. destruct (reachable_keyed P s R p x X) as [_ Ku].
  destruct (Ku u U) as [Ea Kk]. split; [exact Ea|].
  split; [intros E; now rewrite E in Kk|]. split; [intros E; now rewrite E in Kk|].
  intros c Eo.
  unfold exec. rewrite Eo. unfold map_ok, osk, osk_with_domain_separator, bind, get_peer.
  rewrite X. cbn beta iota. rewrite X. cbn beta iota. rewrite U. unfold need, ret. cbn beta iota.
  rewrite Ea. destruct (p_ds x); reflexivity.
Qed.
Print Assumptions C49_session_keys.

(** Hence the two directions use different keys, and neither is the output key, unless the hash
    evaluations behind them collide. *)
Theorem C49_directions_separate : forall P a ck,
  ini_key P a ck = res_key P a ck ->
  let l1 := ["chaining key extract"; "initiator handshake encryption"]%string in
  let l2 := ["chaining key extract"; "responder handshake encryption"]%string in
  collide P (domain_calls P a l1 ++ [(a, ck, domain P a l1)]) (domain_calls P a l2 ++ [(a, ck, domain P a l2)]) \/
  hits_zero P (domain_calls P a l1) \/ hits_zero P (domain_calls P a l2).
Proof.
  intros P a ck E l1 l2.
  destruct (bytes_dec (domain P a l1) (domain P a l2)) as [Ed|N].
  - destruct (C49_domains_separate P a l1 a l2 Ed) as [[_ El]|[K|K]].
    + discriminate El.
    + left. now apply collide_app.
    + right. exact K.
  - left. eexists _, _. split; [apply in_or_app; right; left; reflexivity|].
    split; [apply in_or_app; right; left; reflexivity|]. split; [|exact E].
    intros H. apply N. now injection H.
Qed.
Print Assumptions C49_directions_separate.

(** Non-vacuity: both ends of the demonstration handshake have a session, in both roles; its
    keys are different. *)
Example C49_nonvacuous :
  (exists x u, nth_error (s_peers Demo.A3) 0 = Some x /\ p_session x = Some u /\ se_role u = Initiator /\
     se_txkm u <> se_txkt u) /\
  (exists x u, nth_error (s_peers Demo.B3) 0 = Some x /\ p_session x = Some u /\ se_role u = Responder) /\
  domain Demo.P Shake ["mac"%string] <> domain Demo.P Blake ["mac"%string].
Proof.
  split; [|split].
  - eexists _, _. split; [reflexivity|]. split; [reflexivity|]. split; [reflexivity|]. vm_compute. discriminate.
  - eexists _, _. split; [reflexivity|]. split; reflexivity.
  - vm_compute. discriminate.
Qed.
