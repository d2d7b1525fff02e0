(** C33, C34: building the engine and supplying its keypair. *)
From Verif Require Import Base ConstTime Prims HashDomains Wire Server Protocol Wp Inv Rules Calls PollRules System Trans Demo PSafety Builder.

(** * C33 *)

(** Peer [x] of the engine was made from the parameters [p] and has not exchanged anything. *)
Definition made_from (p : peer_params) (x : peer) : Prop :=
  p_spkt x = pp_pk p /\ p_alg x = pp_alg p /\ p_ds x = pp_ds p /\
  p_psk x = match pp_psk p with Some k => k | None => zeros 32 end /\
  p_session x = None /\ p_handshake x = None.

(** The identities under which the peers will be known. *)
Definition identities (P : prims) (ps : list peer_params) : list bytes :=
  map (fun p => peer_id P (pp_alg p) (pp_pk p)) ps.

Lemma made_new p : made_from p (new_peer (pp_psk p) (pp_pk p) (pp_alg p) (pp_ds p)).
Proof. repeat split. Qed.

Lemma add_peer_reachable P s psk pk a ds s' n :
  reachable P s -> add_peer P psk pk a ds s = (s', Ok n) -> reachable P s'.
Proof.
  intros (s0 & h & I & R) E. pose (c := {| c_now := 0%Z; c_coins := Demo.coin x00; c_op := OAddPeer psk pk a ds |}).
  exists s0, (h ++ [(c, Ok (RPeer n))]). split; [exact I|].
  clear I. induction R as [s|s c1 r s1 h s2 V X R IH]; cbn [app].
  - apply run_cons with (s1 := s'); [| |constructor].
    + split; [apply Demo.wf_coin|exact Logic.I].
    + unfold exec, c. cbn [c_op]. unfold map_ok, bind. now rewrite E.
  - apply run_cons with (s1 := s1); auto.
Qed.

Lemma initial_reachable P s : initial s -> reachable P s.
Proof. intros I. exists s, []. split; [exact I|constructor]. Qed.

Lemma build_peers_spec P ps : forall s,
  reachable P s ->
  match build_peers P (length (s_peers s)) ps s with
  | Ok s' =>
      reachable P s' /\ s_sskm s' = s_sskm s /\ s_spkm s' = s_spkm s /\
      s_peers s' = s_peers s ++ map (fun p => new_peer (pp_psk p) (pp_pk p) (pp_alg p) (pp_ds p)) ps
  | Err e =>
      e = BadPeer EPeerExists /\
      ~ NoDup (map (fun x => peer_id P (p_alg x) (p_spkt x)) (s_peers s) ++ identities P ps)
  | Panic => False
  end.
Proof.
  induction ps as [|p ps IH]; intros s R; cbn [build_peers].
  { rewrite app_nil_r. auto. }
  destruct (add_peer P (pp_psk p) (pp_pk p) (pp_alg p) (pp_ds p) s) as [s1 r] eqn:E.
  pose proof E as E0. rewrite add_peer_eq in E.
  destruct (ix s (KPeer (peer_id P (pp_alg p) (pp_pk p)))) as [q|] eqn:X.
  - injection E as <- <-. split; [reflexivity|]. intros ND.
    destruct (i_peer1 P s (reachable_inv P s R) _ _ X) as (x & Hx & Ex).
    unfold identities in ND. cbn [map] in ND. apply NoDup_remove_2 in ND. apply ND.
    apply in_or_app. left. apply in_map_iff. exists x. split; [exact Ex|].
    eapply nth_error_In; exact Hx.
  - injection E as <- <-. rewrite Nat.eqb_refl.
    set (x := new_peer _ _ _ _) in *.
    set (s1 := set_peers _ _) in *.
    assert (s_peers s1 = s_peers s ++ [x]) as Ep by reflexivity.
    assert (length (s_peers s1) = S (npeers s)) as El
      by (rewrite Ep, app_length; cbn [length]; unfold npeers; lia).
    specialize (IH s1 (add_peer_reachable _ _ _ _ _ _ _ _ R E0)). rewrite El in IH. fold (npeers s).
    destruct (build_peers P (S (npeers s)) ps s1) as [s2|e|]; [| |exact IH].
    + destruct IH as (I1 & I2 & I3 & I4). split; [exact I1|]. split; [exact I2|]. split; [exact I3|].
      rewrite I4, Ep, <- app_assoc. reflexivity.
    + destruct IH as (I1 & I2). split; [exact I1|]. intros ND. apply I2.
      rewrite Ep, map_app, <- app_assoc. exact ND.
Qed.

Lemma reachable_NoDup P s : reachable P s -> NoDup (map (fun x => peer_id P (p_alg x) (p_spkt x)) (s_peers s)).
Proof.
  intros R. apply NoDup_nth_error. intros i j Hi E.
  rewrite map_length in Hi. rewrite !nth_error_map in E.
  destruct (nth_error (s_peers s) i) as [x|] eqn:X.
  2:{ apply nth_error_None in X. lia. }
  destruct (nth_error (s_peers s) j) as [y|] eqn:Y; [|discriminate].
  eapply C07_identities_distinct; eauto. now injection E.
Qed.

(** Building succeeds exactly when the keypair is present and the identities are distinct. *)
Theorem C33_build_iff : forall P d b,
  (exists s, build P d b = Ok s) <-> (b_keypair b <> None /\ NoDup (identities P (b_peers b))).
Proof.
  intros P d b. unfold build. destruct (b_keypair b) as [[sk pk]|].
  2:{ split; [intros (s & [=])|]. intros [H _]. now elim H. }
  assert (reachable P (server_new sk pk (dr_b0 d) (dr_b1 d) (dr_k0 d) (dr_k1 d) (dr_hk d))) as R
    by (apply initial_reachable; repeat eexists).
  pose proof (build_peers_spec P (b_peers b) _ R) as B.
  change (length (s_peers (server_new _ _ _ _ _ _ _))) with 0 in B.
  destruct (build_peers _ _ _ _) as [s|e|] eqn:E; [| |destruct B].
  - split; [|eauto]. intros _. split; [discriminate|]. destruct B as (B1 & _ & _ & B4).
    pose proof (reachable_NoDup P s B1) as ND. rewrite B4 in ND.
    cbn [s_peers server_new app] in ND. rewrite map_map in ND. exact ND.
  - split; [intros (s & [=])|]. intros [_ ND]. destruct B as (_ & B). now elim B.
Qed.
Print Assumptions C33_build_iff.

(** Why it fails, if it fails; it never panics. *)
Theorem C33_build_fails : forall P d b,
  build P d b <> Panic /\
  (forall e, build P d b = Err e ->
     (e = MissingKeypair /\ b_keypair b = None) \/
     (e = BadPeer EPeerExists /\ b_keypair b <> None /\ ~ NoDup (identities P (b_peers b)))).
Proof.
  intros P d b. unfold build. destruct (b_keypair b) as [[sk pk]|].
  2:{ split; [discriminate|]. intros e [= <-]. now left. }
  assert (reachable P (server_new sk pk (dr_b0 d) (dr_b1 d) (dr_k0 d) (dr_k1 d) (dr_hk d))) as R
    by (apply initial_reachable; repeat eexists).
  pose proof (build_peers_spec P (b_peers b) _ R) as B.
  change (length (s_peers (server_new _ _ _ _ _ _ _))) with 0 in B.
  destruct (build_peers _ _ _ _) as [s|e|] eqn:E; [| |destruct B].
  - split; discriminate.
  - split; [discriminate|]. intros e' [= <-]. right. destruct B as (B1 & B2).
    split; [exact B1|]. split; [discriminate|]. exact B2.
Qed.
Print Assumptions C33_build_fails.

(** The server that is built: the keypair given, the peers given, each at its position,
    found under its identity, and nothing else; it is a server the other theorems speak of. *)
Theorem C33_built_server : forall P d b s,
  build P d b = Ok s ->
  reachable P s /\
  b_keypair b = Some (s_sskm s, s_spkm s) /\
  length (s_peers s) = length (b_peers b) /\
  forall i p, nth_error (b_peers b) i = Some p ->
    exists x, nth_error (s_peers s) i = Some x /\ made_from p x /\
      find_peer s (peer_id P (pp_alg p) (pp_pk p)) = Some i.
Proof.
  intros P d b s. unfold build. destruct (b_keypair b) as [[sk pk]|]; [|discriminate].
  assert (reachable P (server_new sk pk (dr_b0 d) (dr_b1 d) (dr_k0 d) (dr_k1 d) (dr_hk d))) as R
    by (apply initial_reachable; repeat eexists).
  pose proof (build_peers_spec P (b_peers b) _ R) as B.
  change (length (s_peers (server_new _ _ _ _ _ _ _))) with 0 in B.
  destruct (build_peers _ _ _ _) as [s'|e|] eqn:E; [|discriminate|destruct B].
  intros [= <-]. destruct B as (B1 & B2 & B3 & B4).
  cbn [s_peers s_sskm s_spkm server_new app] in *.
  split; [exact B1|]. split; [now rewrite B2, B3|]. split; [now rewrite B4, map_length|].
  intros i p Hp.   assert (pe s' i = Some (new_peer (pp_psk p) (pp_pk p) (pp_alg p) (pp_ds p))) as Hx
    by (unfold pe; rewrite B4; exact (map_nth_error (fun p => new_peer (pp_psk p) (pp_pk p) (pp_alg p) (pp_ds p)) i (b_peers b) Hp)).
  exists (new_peer (pp_psk p) (pp_pk p) (pp_alg p) (pp_ds p)).
  split; [exact Hx|]. split; [apply made_new|].
  exact (i_peer2 P s' (reachable_inv P s' B1) i _ Hx).
Qed.
Print Assumptions C33_built_server.

(** The position announced by [add_peer] is the position in the server that is built, whatever
    is added before and after. *)
Theorem C33_announced_position : forall P d b p b' n later s,
  builder_add_peer p b = (b', n) ->
  build P d (fold_left (fun b q => with_added_peer q b) later b') = Ok s ->
  exists x, nth_error (s_peers s) n = Some x /\ made_from p x.
Proof.
  intros P d b p b' n later s [= <- <-] E.
  destruct (C33_built_server P d _ s E) as (_ & _ & _ & H).
  assert (forall l b, b_peers (fold_left (fun b q => with_added_peer q b) l b) = b_peers b ++ l) as F.
  { induction l as [|q l IH]; intros b0; cbn [fold_left]; [now rewrite app_nil_r|].
    rewrite IH. cbn [with_added_peer b_peers]. now rewrite <- app_assoc. }
  destruct (H (length (b_peers b)) p) as (x & X & M & _).
  { rewrite F. cbn [with_added_peer b_peers]. rewrite <- app_assoc, nth_error_app2 by lia.
    now rewrite Nat.sub_diag. }
  eauto.
Qed.
Print Assumptions C33_announced_position.

(** A keypair that is set is not replaced by [with_keypair]. *)
Theorem C33_keypair_once : forall b kp b1 kp2,
  with_keypair kp b = Some b1 -> b_keypair b1 = Some kp /\ b_peers b1 = b_peers b /\ with_keypair kp2 b1 = None.
Proof.
  intros b kp b1 kp2 H. unfold with_keypair in H. destruct (b_keypair b); [discriminate|].
  injection H as <-. auto.
Qed.
Print Assumptions C33_keypair_once.

Definition pB : peer_params := {| pp_psk := Demo.psk; pp_pk := Demo.pkB; pp_alg := Shake; pp_ds := ExtensionWireguardPsk |}.
Definition pC : peer_params := {| pp_psk := None; pp_pk := [x0c]; pp_alg := Blake; pp_ds := ExtensionWireguardPsk |}.
Definition d0 : draws := {| dr_b0 := zeros 32; dr_b1 := zeros 32; dr_k0 := zeros 16; dr_k1 := zeros 16; dr_hk := zeros 32 |}.

(** Non-vacuity: two different peers can be built, two equal ones cannot, nor can a server
    without a keypair. *)
Example C33_nonvacuous :
  (exists s, build Demo.P d0 {| b_keypair := Some (Demo.skA, Demo.pkA); b_peers := [pB; pC] |} = Ok s) /\
  build Demo.P d0 {| b_keypair := Some (Demo.skA, Demo.pkA); b_peers := [pB; pC; pB] |} = Err (BadPeer EPeerExists) /\
  build Demo.P d0 {| b_keypair := None; b_peers := [pB; pC] |} = Err MissingKeypair.
Proof. split; [|split]; [eexists|..]; vm_compute; reflexivity. Qed.

(** * C34 *)

(** A request carries a keypair: two readable files of exactly the right sizes. *)
Definition carries (fds : list file) (sk pk : bytes) : Prop :=
  nth_error fds 0 = Some (Some sk) /\ nth_error fds 1 = Some (Some pk) /\
  N.of_nat (length sk) = 13608%N /\ N.of_nat (length pk) = 524160%N.

Lemma read_exact_spec n f l :
  read_exact_til_end n f = Some l <-> f = Some l /\ N.of_nat (length l) = n.
Proof.
  unfold read_exact_til_end. destruct f as [m|]; [|split; [discriminate|intros [[=] _]]].
  destruct (N.ltb_spec (N.of_nat (length m)) n) as [H|H].
  - split; [discriminate|]. intros [[= ->] E]. lia.
  - destruct (N.eqb_spec (N.of_nat (length m)) n) as [E|E]; cbn [negb].
    + split; [intros [= ->]; auto|]. now intros [[= ->] _].
    + split; [discriminate|]. intros [[= ->] E']. now elim E.
Qed.

(** The four ways a request is answered. *)
Lemma supply_spec P d fds c :
  ((forall sk pk, ~ carries fds sk pk) /\ supply_keypair P d fds c = (c, Ok SK_INVALID_REQUEST)) \/
  (exists sk pk, carries fds sk pk /\
     supply_keypair P d fds c =
       match c with
       | Void => (Void, Err SupplyVoid)
       | Product s => (Product s, Ok SK_ALREADY_SUPPLIED)
       | Building b =>
           match build P d {| b_keypair := Some (sk, pk); b_peers := b_peers b |} with
           | Ok s => (Product s, Ok SK_OK)
           | Err e => (Void, Err (SupplyErect (Other e)))
           | Panic => (Void, Panic)
           end
       end).
Proof.
  unfold supply_keypair.
  destruct (nth_error fds 0) as [f0|] eqn:E0.
  2:{ left. split; [intros sk pk (A & _); congruence|reflexivity]. }
  destruct (nth_error fds 1) as [f1|] eqn:E1.
  2:{ left. split; [intros sk pk (_ & A & _); congruence|reflexivity]. }
  destruct (read_exact_til_end SK_LEN f0) as [sk|] eqn:R0.
  2:{ left. split; [|reflexivity]. intros sk pk (A & _ & C & _).
      assert (read_exact_til_end SK_LEN f0 = Some sk) by (apply read_exact_spec; split; [congruence|exact C]). congruence. }
  destruct (read_exact_til_end PK_LEN f1) as [pk|] eqn:R1.
  2:{ left. split; [|reflexivity]. intros sk' pk (_ & A & _ & C).
      assert (read_exact_til_end PK_LEN f1 = Some pk) by (apply read_exact_spec; split; [congruence|exact C]). congruence. }
  right. apply read_exact_spec in R0. apply read_exact_spec in R1.
  destruct R0 as (-> & L0), R1 as (-> & L1). exists sk, pk. split; [repeat split; assumption|].
  destruct c as [|b|s]; try reflexivity.
  unfold erect. now destruct (build _ _ _).
Qed.

Lemma supply_malformed P d fds c :
  (forall sk pk, ~ carries fds sk pk) -> supply_keypair P d fds c = (c, Ok SK_INVALID_REQUEST).
Proof.
  intros H. destruct (supply_spec P d fds c) as [[_ E]|(sk & pk & C & _)]; [exact E|].
  now elim (H sk pk).
Qed.

(** A request that does not carry a keypair is answered INVALID_REQUEST and changes nothing. *)
Theorem C34_malformed : forall P d fds c,
  (forall sk pk, ~ carries fds sk pk) -> supply_keypair P d fds c = (c, Ok 3%N).
Proof. exact supply_malformed. Qed.
Print Assumptions C34_malformed.

Lemma carries_inj fds sk pk sk' pk' : carries fds sk pk -> carries fds sk' pk' -> sk' = sk /\ pk' = pk.
Proof. intros (A & B & _) (A' & B' & _). split; congruence. Qed.

(** A request with a keypair, before there is a server: a server with that keypair and the
    peers added so far, provided those are distinct. *)
Theorem C34_supplied : forall P d fds b sk pk,
  carries fds sk pk -> NoDup (identities P (b_peers b)) ->
  exists s, supply_keypair P d fds (Building b) = (Product s, Ok 0%N) /\
    s_sskm s = sk /\ s_spkm s = pk /\ length (s_peers s) = length (b_peers b) /\
    (forall i p, nth_error (b_peers b) i = Some p ->
       exists x, nth_error (s_peers s) i = Some x /\ made_from p x).
Proof.
  intros P d fds b sk pk C ND.
  destruct (supply_spec P d fds (Building b)) as [[N _]|(sk' & pk' & C' & E)]; [now elim (N sk pk)|].
  destruct (carries_inj _ _ _ _ _ C C') as (-> & ->).
  set (b' := {| b_keypair := Some (sk, pk); b_peers := b_peers b |}) in *.
  destruct (proj2 (C33_build_iff P d b')) as (s & B).
  { split; [discriminate|exact ND]. }
  rewrite B in E. destruct (C33_built_server P d b' s B) as (_ & K & L & H).
  exists s. cbn [b_keypair b'] in K. injection K as K1 K2.
  split; [exact E|]. split; [auto|]. split; [auto|]. split; [exact L|].
  intros i p Hp. destruct (H i p Hp) as (x & X & M & _). eauto.
Qed.
Print Assumptions C34_supplied.

(** The answer to a request, if it was one. *)
Definition answered (r : site_out) (st : N) : Prop := r = SSupplied (Ok st).

Lemma product_stays P s h c : reachable P s -> site_run P (Product s) h c ->
  exists s', c = Product s' /\ reachable P s' /\ s_sskm s' = s_sskm s /\ s_spkm s' = s_spkm s /\
    (forall p x, nth_error (s_peers s) p = Some x ->
       exists x', nth_error (s_peers s') p = Some x' /\ p_spkt x' = p_spkt x /\ p_psk x' = p_psk x /\
         p_alg x' = p_alg x /\ p_ds x' = p_ds x) /\
    (forall o r, In (o, r) h -> match o with SSupply _ _ => answered r 1%N \/ answered r 3%N | _ => True end).
Proof.
  remember (Product s) as c0 eqn:E0. intros R H. revert s E0 R.
  induction H as [c|c o c1 r h c2 V E H IH]; intros s -> R.
  - exists s. repeat split; auto. + intros p x X. eauto 10. + intros o r [].
  - assert (exists s1, c1 = Product s1 /\ reachable P s1 /\ evo s s1 /\
              match o with SSupply _ _ => answered r 1%N \/ answered r 3%N | _ => True end)
      as (s1 & -> & R1 & V1 & A1).
    { destruct o as [p|d fds|x]; unfold site_exec in E.
      - unfold site_add_peer in E.
        pose proof (add_peer_fine P (pp_psk p) (pp_pk p) (pp_alg p) (pp_ds p) s (reachable_inv P s R)) as W.
        unfold wp in W.
        destruct (add_peer P (pp_psk p) (pp_pk p) (pp_alg p) (pp_ds p) s) as [s1 [n|e|]] eqn:Ea;
          cbn [fst snd] in W; injection E as <- <-; exists s1; split; try reflexivity.
        + split; [eapply add_peer_reachable; eauto|]. now split.
        + destruct W as (_ & _ & _ & ->). split; [exact R|]. split; [apply evo_refl|exact Logic.I].
        + now destruct W as (_ & _ & W & _).
      - destruct (supply_spec P d fds (Product s)) as [[_ Es]|(sk & pk & _ & Es)];
          rewrite Es in E; injection E as <- <-; exists s; split; try reflexivity;
          (split; [exact R|]; split; [apply evo_refl|]); [now right|now left].
      - destruct (exec P x s) as [s1 r1] eqn:Ex. injection E as <- <-. exists s1. split; [reflexivity|].
        destruct R as (s0 & h0 & I & Ru).
        assert (run P s0 (h0 ++ [(x, r1)]) s1) as Ru1.
        { clear IH H I. cbn [site_valid] in V. induction Ru as [s|s c1 r s2 h1 s3 V1 X1 R1 IH]; cbn [app].
          - econstructor; [exact V|exact Ex|constructor].
          - econstructor; eauto. }
        split; [exists s0, (h0 ++ [(x, r1)]); auto|].
        split; [|exact Logic.I].
        apply (run_evo P s [(x, r1)] s1).
        + apply reachable_inv. exists s0, h0. auto.
        + econstructor; [exact V|exact Ex|constructor]. }
    destruct (IH s1 eq_refl R1) as (s' & -> & R' & K1 & K2 & K3 & K4).
    exists s'. split; [reflexivity|]. split; [exact R'|].
    destruct V1 as [V1 V2 _ _ V5].
    split; [congruence|]. split; [congruence|]. split.
    + intros p x X. destruct (V5 p x X) as (y & Y & Pe). destruct (K3 p y Y) as (z & Z & Q1 & Q2 & Q3 & Q4).
      exists z. split; [exact Z|]. destruct Pe. repeat split; congruence.
    + intros o' r' [[= <- <-]|Hin]; [exact A1|]. now apply K4.
Qed.

(** Over any history from a site under construction, and whatever else happens in between: at
    most one request is answered OK; the requests after it are answered ALREADY_SUPPLIED if
    they carry a keypair and INVALID_REQUEST if not; and the server runs on with the same keys
    and with its peers in their places. *)
Theorem C34_at_most_once : forall P b h c i j o1 r1 o2 r2,
  site_run P (Building b) h c ->
  nth_error h i = Some (o1, r1) -> nth_error h j = Some (o2, r2) ->
  answered r1 0%N -> answered r2 0%N -> i = j.
Proof.
  intros P b h c.
  assert (forall c0, site_run P c0 h c -> (forall s, c0 = Product s -> reachable P s) ->
          forall i j o1 r1 o2 r2, i < j ->
          nth_error h i = Some (o1, r1) -> nth_error h j = Some (o2, r2) ->
          answered r1 0%N -> answered r2 0%N -> False) as G.
  { intros c0 H. induction H as [c|c o c1 r h c2 V E H IH]; intros Rc i j o1 r1 o2 r2 Hij Hi Hj A1 A2.
    { destruct i; discriminate. }
    destruct i as [|i], j as [|j]; try lia; cbn [nth_error] in Hi, Hj.
    - injection Hi as -> ->. destruct o1 as [p|d fds|x]; unfold site_exec in E.
      + destruct (site_add_peer P p c). injection E as _ <-. discriminate.
      + destruct (supply_spec P d fds c) as [[_ Es]|(sk & pk & _ & Es)]; rewrite Es in E.
        { injection E as _ <-. discriminate. }
        destruct c as [|b1|s]; [injection E as _ <-; discriminate| |injection E as _ <-; discriminate].
        destruct (build P d _) as [s|e|] eqn:B; injection E as <- <-; try discriminate.
        destruct (C33_built_server P d _ s B) as (R & _).
        destruct (product_stays P s h c2 R H) as (_ & _ & _ & _ & _ & _ & K).
        apply nth_error_In in Hj. specialize (K _ _ Hj). unfold answered in *. subst r2.
        destruct o2 as [p2|d2 fds2|x2].
        * clear -Hj H R. remember (Product s) as c0 eqn:E0. clear E0 R.
          induction H as [|? ? ? ? ? ? V E H IH]; [destruct Hj|]. destruct Hj as [Hj|Hj]; [|now apply IH].
          injection Hj as -> ->. unfold site_exec in E. destruct (site_add_peer _ _ _). discriminate.
        * destruct K; discriminate.
        * clear -Hj H R. remember (Product s) as c0 eqn:E0. clear E0 R.
          induction H as [|c ? ? ? ? ? V E H IH]; [destruct Hj|]. destruct Hj as [Hj|Hj]; [|now apply IH].
          injection Hj as -> ->. unfold site_exec in E. destruct c; try discriminate.
          destruct (exec _ _ _). discriminate.
      + destruct c; try (injection E as _ <-; discriminate).
        destruct (exec P x s). injection E as _ <-. discriminate.
    - apply (IH) with (i := i) (j := j) (o1 := o1) (r1 := r1) (o2 := o2) (r2 := r2); auto; [|lia].
      intros s ->. destruct o as [p|d fds|x]; unfold site_exec in E.
      + destruct c as [|b1|s1]; [discriminate| |].
        { destruct (builder_add_peer p b1) as [b2 n] eqn:Ea. cbn [site_add_peer] in E. rewrite Ea in E. discriminate. }
        assert (site_run P (Product s1) [(SAdd p, r)] (Product s)) as Rn
          by (econstructor; [exact V|exact E|constructor]).
        destruct (product_stays P s1 _ _ (Rc s1 eq_refl) Rn) as (s' & [= <-] & R' & _). exact R'.
      + destruct (supply_spec P d fds c) as [[_ Es]|(sk & pk & _ & Es)]; rewrite Es in E.
        { injection E as E1 _. now apply Rc. }
        destruct c as [|b1|s1]; [discriminate| |injection E as -> _; now apply Rc].
        destruct (build P d _) as [s2|e|] eqn:B; try discriminate. injection E as -> _.
        now destruct (C33_built_server P d _ s B).
      + destruct c as [|b1|s1]; try discriminate.
        assert (site_run P (Product s1) [(SCall x, r)] (Product s)) as Rn
          by (econstructor; [exact V|exact E|constructor]).
        destruct (product_stays P s1 _ _ (Rc s1 eq_refl) Rn) as (s' & [= <-] & R' & _). exact R'. }
  intros i j o1 r1 o2 r2 H Hi Hj A1 A2.
  destruct (Nat.lt_trichotomy i j) as [L|[L|L]]; [|exact L|].
  - exfalso. eapply (G _ H) with (i := i) (j := j); eauto. discriminate.
  - exfalso. eapply (G _ H) with (i := j) (j := i); eauto. discriminate.
Qed.
Print Assumptions C34_at_most_once.

Theorem C34_never_replaced : forall P d b fds s h c,
  supply_keypair P d fds (Building b) = (Product s, Ok 0%N) -> site_run P (Product s) h c ->
  exists s', c = Product s' /\ s_sskm s' = s_sskm s /\ s_spkm s' = s_spkm s /\
    (forall p x, nth_error (s_peers s) p = Some x ->
       exists x', nth_error (s_peers s') p = Some x' /\ p_spkt x' = p_spkt x /\ p_psk x' = p_psk x /\
         p_alg x' = p_alg x /\ p_ds x' = p_ds x) /\
    (forall d fds sk pk, carries fds sk pk -> supply_keypair P d fds c = (c, Ok 1%N)).
Proof.
  intros P d b fds s h c E H.
  assert (reachable P s) as R.
  { destruct (supply_spec P d fds (Building b)) as [[_ Es]|(sk & pk & _ & Es)]; rewrite Es in E; [discriminate|].
    destruct (build P d _) as [s2|e|] eqn:B; try discriminate. injection E as ->.
    now destruct (C33_built_server P d _ s B). }
  destruct (product_stays P s h c R H) as (s' & -> & _ & K1 & K2 & K3 & _).
  exists s'. split; [reflexivity|]. split; [exact K1|]. split; [exact K2|]. split; [exact K3|].
  intros d2 fds2 sk pk C. destruct (supply_spec P d2 fds2 (Product s')) as [[N _]|(? & ? & _ & Es)]; [|exact Es].
  now elim (N sk pk).
Qed.
Print Assumptions C34_never_replaced.

(** Non-vacuity: such requests exist. *)
Example C34_nonvacuous : exists fds sk pk s,
  carries fds sk pk /\
  supply_keypair Demo.P d0 fds (Building {| b_keypair := None; b_peers := [pB; pC] |}) = (Product s, Ok 0%N).
Proof.
  set (sk := repeat x01 (N.to_nat 13608)). set (pk := repeat x02 (N.to_nat 524160)).
  assert (carries [Some sk; Some pk] sk pk) as C.
  { split; [reflexivity|]. split; [reflexivity|]. unfold sk, pk. rewrite !repeat_length, !N2Nat.id. auto. }
  destruct (C34_supplied Demo.P d0 [Some sk; Some pk] {| b_keypair := None; b_peers := [pB; pC] |} sk pk C) as (s & E & _).
  { cbn [b_peers]. constructor; [|constructor; [intros []|constructor]].
    intros [H|[]]. revert H. vm_compute. discriminate. }
  exists [Some sk; Some pk], sk, pk, s. auto.
Qed.

(** Nothing checks for duplicate peers while the server is under construction: such a request
    is then not answered at all (the handler returns an error), the configuration is lost, and
    no later request can supply a keypair, nor can a peer be added. *)
Theorem C34_duplicate_peers_refuted : exists P b fds sk pk,
  carries fds sk pk /\
  forall d, exists e, supply_keypair P d fds (Building b) = (Void, Err e) /\
    forall h c, site_run P Void h c -> c = Void /\
      forall o r, In (o, r) h ->
        match o with
        | SAdd _ => r = SAdded (Err SiteVoid)
        | SSupply _ _ => r = SSupplied (Err SupplyVoid) \/ answered r 3%N
        | SCall _ => r = SCalled None
        end.
Proof.
  set (sk := repeat x01 (N.to_nat 13608)). set (pk := repeat x02 (N.to_nat 524160)).
  assert (carries [Some sk; Some pk] sk pk) as C.
  { split; [reflexivity|]. split; [reflexivity|]. unfold sk, pk. rewrite !repeat_length, !N2Nat.id. auto. }
  exists Demo.P, {| b_keypair := None; b_peers := [pB; pB] |}, [Some sk; Some pk], sk, pk.
  split; [exact C|]. intros d.
  destruct (supply_spec Demo.P d [Some sk; Some pk] (Building {| b_keypair := None; b_peers := [pB; pB] |}))
    as [[N _]|(sk' & pk' & C' & E)]; [now elim (N sk pk)|]. cbn [b_peers] in E.
  destruct (build Demo.P d _) as [s|e|] eqn:B.
  - exfalso. destruct (proj1 (C33_build_iff Demo.P d _) (ex_intro _ s B)) as (_ & ND).
    cbn [b_peers identities map] in ND. inversion ND as [|? ? Hn _]. apply Hn. now left.
  - eexists. split; [exact E|]. clear. intros h c H.
    remember Void as c0 eqn:E0 in H at 1. induction H as [c|c o c1 r h c2 V E H IH].
    + split; [exact E0|intros o r []].
    + subst c. assert (c1 = Void /\ match o with SAdd _ => r = SAdded (Err SiteVoid)
        | SSupply _ _ => r = SSupplied (Err SupplyVoid) \/ answered r 3%N | SCall _ => r = SCalled None end) as (-> & K).
      { destruct o as [p|d fds|x]; unfold site_exec in E.
        - injection E as <- <-. auto.
        - destruct (supply_spec Demo.P d fds Void) as [[_ Es]|(? & ? & _ & Es)]; rewrite Es in E;
            injection E as <- <-; split; auto. now right.
        - injection E as <- <-. auto. }
      destruct (IH eq_refl) as (-> & K'). split; [reflexivity|].
      intros o' r' [[= <- <-]|Hin]; auto. now apply K'.
  - now elim (proj1 (C33_build_fails Demo.P d _) B).
Qed.
Print Assumptions C34_duplicate_peers_refuted.
