(** What the attacker of Sym.v can never derive: an invariant over all runs. *)
From Verif Require Import Base Prims HashDomains Sym.
From Coq Require Strings.String.
Import (notations) Coq.Strings.String.

Lemma term_eqb_true x y : term_eqb x y = true -> x = y.
Proof. unfold term_eqb. destruct (term_eq_dec x y); congruence. Qed.
Lemma term_eqb_refl x : term_eqb x x = true.
Proof. unfold term_eqb. destruct (term_eq_dec x x); congruence. Qed.

(** * Shapes of hash terms *)

(** How many hashes are nested in the key position. *)
Fixpoint ldepth (t : term) : nat := match t with H _ k _ => S (ldepth k) | _ => 0 end.

Definition chain_from (g : halg) (ck : term) (items : list term) : term := fold_left (s_ckmix g) items ck.
Definition chain (g : halg) (pk : term) (items : list term) : term := chain_from g (s_start g pk) items.

Lemma chain_snoc g pk l x : chain g pk (l ++ [x]) = s_ckmix g (chain g pk l) x.
Proof. unfold chain, chain_from. now rewrite fold_left_app. Qed.
Lemma chain_app g pk l l' : chain g pk (l ++ l') = chain_from g (chain g pk l) l'.
Proof. unfold chain, chain_from. now rewrite fold_left_app. Qed.
Lemma chain_depth g pk l : ldepth (chain g pk l) = 3 + 2 * length l.
Proof.
  induction l as [|x l IH] using rev_ind; [reflexivity|].
  rewrite chain_snoc, app_length. unfold s_ckmix. cbn [ldepth length]. rewrite IH. lia.
Qed.
Lemma chain_is_hash g pk l : exists k d, chain g pk l = H g k d.
Proof.
  destruct l as [|x l _] using rev_ind; [unfold chain, chain_from, s_start; cbn [fold_left]; eauto|].
  rewrite chain_snoc. unfold s_ckmix. eauto.
Qed.
Lemma chain_inj g g' pk pk' l l' : chain g pk l = chain g' pk' l' -> g = g' /\ pk = pk' /\ l = l'.
Proof.
  revert l'. induction l as [|x l IH] using rev_ind; intros l' E.
  - assert (D := f_equal ldepth E). rewrite !chain_depth in D. cbn [length] in D.
    destruct l' as [|y l']; [|cbn [length] in D; lia].
    unfold chain, chain_from, s_start in E. cbn [fold_left] in E.
    assert (g = g') by congruence. assert (pk = pk') by congruence. auto.
  - assert (D := f_equal ldepth E). rewrite !chain_depth, app_length in D. cbn [length] in D.
    destruct l' as [|y l' _] using rev_ind; [cbn [length] in D; lia|].
    rewrite !chain_snoc in E. unfold s_ckmix in E.
    assert (E1 : chain g pk l = chain g' pk' l') by congruence.
    assert (x = y) by congruence. destruct (IH _ E1) as (-> & -> & ->). subst. auto.
Qed.
(** A chaining key is no hash of a chaining key with a label. *)
Lemma chain_hash_neq g pk l g' pk' l' d : chain g pk l <> H g' (chain g' pk' l') d.
Proof.
  intros E. assert (D := f_equal ldepth E). cbn [ldepth] in D. rewrite !chain_depth in D. lia.
Qed.

Lemma ds_depth g ds : 4 <= ldepth (s_ds g ds).
Proof.
  destruct ds as [|ns labels]; [cbn; lia|]. unfold s_ds.
  assert (G : forall l k, 4 <= ldepth k -> 4 <= ldepth (fold_left (fun k l => H g k (Lit l)) l k)).
  { clear. induction l as [|y l IH]; intros k D; [exact D|]. cbn [fold_left]. apply IH. cbn [ldepth]. lia. }
  apply G. cbn. lia.
Qed.
Lemma ds_is_hash g ds : exists k b, s_ds g ds = H g k (Lit b).
Proof.
  destruct ds as [|ns labels]; [unfold s_ds; eauto|]. unfold s_ds.
  assert (G : forall l k, (exists k' b, k = H g k' (Lit b)) ->
    exists k' b, fold_left (fun k l => H g k (Lit l)) l k = H g k' (Lit b)).
  { clear. induction l as [|y l IH]; intros k D; [exact D|]. cbn [fold_left]. apply IH. eauto. }
  apply G. eauto.
Qed.
Lemma ds_mix g g' ds : s_ds g ds <> s_mix g'.
Proof. intros E. pose proof (ds_depth g ds) as D. rewrite E in D. cbn in D. lia. Qed.
Lemma ds_hs g g' ds : s_ds g ds <> s_hs_enc g'.
Proof. intros E. pose proof (ds_depth g ds) as D. rewrite E in D. cbn in D. lia. Qed.
Lemma ds_res g g' ds : s_ds g ds <> s_res_enc g'.
Proof. intros E. pose proof (ds_depth g ds) as D. rewrite E in D. cbn in D. lia. Qed.
Lemma hs_res g g' : s_hs_enc g <> s_res_enc g'.
Proof. unfold s_hs_enc, s_res_enc. intros E. assert (X : Lit (str "handshake encryption") = Lit (str "responder handshake encryption")) by congruence. discriminate X. Qed.

(** * The handshake as chains *)

Lemma start_chain g pk : s_start g pk = chain g pk [].
Proof. reflexivity. Qed.

Definition hello_items (pk : term) (m : s_ih) (shk : term) : list term :=
  [y_sidi m; y_epki m; pk; shk; y_sctr m].
Definition hello_all (pk : term) (m : s_ih) (shk ipk psk : term) : list term :=
  hello_items pk m shk ++ [y_pidct m; ipk; psk; y_auth m].
Definition answer_items (epk : term) (sidr sidi ipk : term) (eshk ecti sshk scti : term) : list term :=
  [sidr; sidi; epk; eshk; ecti; ipk; sshk; scti].

Lemma open_spec g ck ct pt ck' : s_open g ck ct = Some (pt, ck') ->
  ct = s_tag (s_key g ck) pt /\ ck' = s_ckmix g ck ct.
Proof.
  unfold s_open, sdec. destruct ct; try discriminate.
  destruct (Bool.eqb false x && term_eqb (s_key g ck) ct1 && term_eqb (Lit (zeros 12)) ct2 &&
    term_eqb (Lit []) ct3) eqn:E; [|discriminate].
  intros [= <- <-]. apply andb_prop in E. destruct E as [E E4]. apply andb_prop in E.
  destruct E as [E E3]. apply andb_prop in E. destruct E as [E1 E2].
  apply term_eqb_true in E2, E3, E4. apply Bool.eqb_prop in E1. subst. auto.
Qed.
Lemma open_tag g ck pt : s_open g ck (s_tag (s_key g ck) pt) = Some (pt, s_ckmix g ck (s_tag (s_key g ck) pt)).
Proof. unfold s_open, s_tag, sdec. rewrite !term_eqb_refl. reflexivity. Qed.

(** The InitHello of [s_init] and its chaining key. *)
Lemma init_spec run A p m ck : s_init run A p = (m, ck) ->
  let g := e_alg p in
  let c5 := chain g (e_pk p) (hello_items (e_pk p) m (Shk false (e_pk p) (Nm (NCoin run false)))) in
  let c8 := chain g (e_pk p) (hello_items (e_pk p) m (Shk false (e_pk p) (Nm (NCoin run false))) ++
                             [y_pidct m; pkey A; e_psk p]) in
  y_sidi m = Nm (NSid run) /\ y_epki m = Pk true (Nm (NEsk run)) /\
  y_sctr m = Ct false (e_pk p) (Nm (NCoin run false)) /\
  y_pidct m = s_tag (s_key g c5) (s_pid g (pkey A)) /\
  y_auth m = s_tag (s_key g c8) (Lit []) /\
  ck = chain g (e_pk p) (hello_all (e_pk p) m (Shk false (e_pk p) (Nm (NCoin run false))) (pkey A) (e_psk p)).
Proof. intros E. unfold s_init, s_seal in E. injection E as <- <-. cbn zeta. repeat split. Qed.

(** An answered InitHello. *)
Lemma resp_spec peers run B k bno g m q rh ck : s_resp peers run B k bno g m = Some (q, rh, ck) ->
  let shk := kdec false (skey B) (y_sctr m) in
  let c5 := chain g (pkey B) (hello_items (pkey B) m shk) in
  let c8 := chain g (pkey B) (hello_items (pkey B) m shk ++ [y_pidct m; e_pk q; e_psk q]) in
  exists pt,
  y_pidct m = s_tag (s_key g c5) (s_pid g (e_pk q)) /\
  s_find peers (s_pid (e_alg q) (e_pk q)) = Some q /\ e_alg q = g /\
  y_auth m = s_tag (s_key g c8) pt /\
  z_sidr rh = Nm (NSid run) /\ z_sidi rh = y_sidi m /\
  z_ecti rh = Ct true (y_epki m) (Nm (NCoin run false)) /\
  z_scti rh = Ct false (e_pk q) (Nm (NCoin run true)) /\
  ck = chain g (pkey B) (hello_all (pkey B) m shk (e_pk q) (e_psk q) ++
         answer_items (y_epki m) (z_sidr rh) (z_sidi rh) (e_pk q)
           (Shk true (y_epki m) (Nm (NCoin run false))) (z_ecti rh)
           (Shk false (e_pk q) (Nm (NCoin run true))) (z_scti rh)) /\
  z_biscuit rh = s_biscuit run B k bno q (z_sidi rh) (z_sidr rh) ck /\
  z_auth rh = s_tag (s_key g (s_ckmix g ck (z_biscuit rh))) (Lit []).
Proof.
  unfold s_resp. destruct (s_open g _ (y_pidct m)) as [[pid c6]|] eqn:O1; [|discriminate].
  destruct (s_find peers pid) as [q'|] eqn:F; [|discriminate].
  destruct (s_open g _ (y_auth m)) as [[pt c9]|] eqn:O2; [|discriminate].
  destruct (halg_eqb (e_alg q') g) eqn:G; [|discriminate].
  apply halg_eqb_eq in G. apply open_spec in O1. destruct O1 as [O1 ->].
  apply open_spec in O2. destruct O2 as [O2 ->]. unfold s_seal.
  intros E. injection E as <- <- <-. cbn zeta. exists pt.
  assert (F1 := F). apply find_some in F. destruct F as [_ F2]. apply term_eqb_true in F2. subst pid.
  rewrite G in O1. cbn [z_sidr z_sidi z_ecti z_scti z_biscuit z_auth].
  split; [exact O1|]. split; [exact F1|]. split; [exact G|]. split; [exact O2|].
  repeat split.
Qed.

Definition conf_items (m : s_rh) (tag : term) : list term := [z_auth m; z_sidi m; z_sidr m; tag].

(** An accepted RespHello. *)
Lemma conf_spec run A p m ic ck : s_conf run A p m = Some (ic, ck) ->
  let g := e_alg p in
  let h := fst (s_init run A p) in
  let items := hello_all (e_pk p) h (Shk false (e_pk p) (Nm (NCoin run false))) (pkey A) (e_psk p) ++
         answer_items (Pk true (Nm (NEsk run))) (z_sidr m) (z_sidi m) (pkey A)
           (kdec true (Nm (NEsk run)) (z_ecti m)) (z_ecti m)
           (kdec false (skey A) (z_scti m)) (z_scti m) ++ [z_biscuit m] in
  exists pt,
  z_sidi m = Nm (NSid run) /\
  z_auth m = s_tag (s_key g (chain g (e_pk p) items)) pt /\
  w_sidi ic = z_sidi m /\ w_sidr ic = z_sidr m /\ w_biscuit ic = z_biscuit m /\
  w_auth ic = s_tag (s_key g (chain g (e_pk p) (items ++ [z_auth m; z_sidi m; z_sidr m]))) (Lit []) /\
  ck = chain g (e_pk p) (items ++ conf_items m (w_auth ic)).
Proof.
  unfold s_conf. destruct (s_init run A p) as [h ck9] eqn:I.
  destruct (term_eqb _ _) eqn:T; [|discriminate]. apply term_eqb_true in T.
  destruct (s_open _ _ (z_auth m)) as [[pt c]|] eqn:O; [|discriminate].
  apply open_spec in O. destruct O as [O ->]. unfold s_seal. intros E. injection E as <- <-.
  cbn [fst snd w_sidi w_sidr w_biscuit w_auth] in *. cbn zeta.
  destruct (init_spec _ _ _ _ _ I) as (_ & _ & _ & _ & _ & ->). exists pt.
  split; [exact T|]. split; [exact O|]. repeat split.
Qed.

(** An accepted InitConf. *)
Lemma done_spec peers B k g m q ck : s_done peers B k g m = Some (q, ck) ->
  exists n bno c0 pt,
  w_biscuit m = Aead true (Nm (NBk B k)) n (s_biscuit_adata g (pkey B) (w_sidi m) (w_sidr m))
                  (Pair (s_pid (e_alg q) (e_pk q)) (Pair bno c0)) /\
  s_find peers (s_pid (e_alg q) (e_pk q)) = Some q /\
  let h := e_alg q in
  let c1 := s_ckmix h c0 (w_biscuit m) in
  let c2 := chain_from h c1 [s_tag (s_key h c1) (Lit []); w_sidi m; w_sidr m] in
  w_auth m = s_tag (s_key h c2) pt /\ ck = s_ckmix h c2 (w_auth m).
Proof.
  unfold s_done, s_unbiscuit, sdec. destruct (w_biscuit m) as [| | | | | | | |x k' n ad pt] eqn:W; try discriminate.
  destruct (Bool.eqb true x && term_eqb _ k' && term_eqb n n && term_eqb _ ad) eqn:E; [|discriminate].
  apply andb_prop in E. destruct E as [E E4]. apply andb_prop in E.
  destruct E as [E E3]. apply andb_prop in E. destruct E as [E1 E2].
  apply term_eqb_true in E2, E4. apply Bool.eqb_prop in E1. subst.
  destruct pt as [| |pid pt2| | | | | |]; try discriminate. destruct pt2 as [| |bno c0| | | | | |]; try discriminate.
  destruct (s_find peers pid) as [q'|] eqn:F; [|discriminate].
  assert (F1 := F). apply find_some in F. destruct F as [_ F2]. apply term_eqb_true in F2. subst pid.
  unfold s_seal. destruct (s_open _ _ (w_auth m)) as [[pt c]|] eqn:O; [|discriminate].
  apply open_spec in O. destruct O as [O ->]. intros X. injection X as <- <-.
  exists n, bno, c0, pt. split; [reflexivity|]. split; [exact F1|]. cbn zeta. split; [exact O|reflexivity].
Qed.

(** * The bound on the attacker's knowledge *)

Section Bound.
Context (cfg : nat -> list entry).

(** What an event seals with one of the two ciphers. *)
Definition sealed (e : event) : list term :=
  match e with
  | EInit run A p => let m := fst (s_init run A p) in [y_pidct m; y_auth m]
  | EResp run B k bno g m =>
      match s_resp (cfg B) run B k bno g m with Some (_, rh, _) => [z_auth rh; z_biscuit rh] | None => [] end
  | EConf run A p m => match s_conf run A p m with Some (ic, _) => [w_auth ic] | None => [] end
  | EDone B k g m ctr =>
      match s_done (cfg B) B k g m with Some (q, ck) => [s_empty (e_alg q) ck ctr] | None => [] end
  | _ => []
  end.

Definition open_name (n : name) : Prop :=
  match n with NSid _ | NNonce _ | NAdv _ => True | _ => False end.

Section For.
Context (tf : list event).

Definition exposed (n : name) : Prop := open_name n \/ revealed tf n.
Definition made (t : term) : Prop := exists e, In e tf /\ In t (sealed e).
Definition leaked (t : term) : Prop :=
  (exists run B k bno g m q rh ck, In (EResp run B k bno g m) tf /\
     s_resp (cfg B) run B k bno g m = Some (q, rh, ck) /\ revealed tf (NBk B k) /\ t = ck) \/
  (exists g ck l, In (EOsk g ck l) tf /\ t = H g ck l) \/
  (exists g x, t = s_pid g x).

Fixpoint pub (t : term) : Prop :=
  match t with
  | Lit _ => True
  | Nm n => exposed n
  | Pair a b => pub a /\ pub b
  | H g k d => (pub k /\ pub d) \/ leaked t
  | Pk _ _ => True
  | Ct _ _ _ => True
  | Shk e p r => pub r \/ match p with Pk e' s => e' = e /\ pub s | _ => False end
  | Bad _ s _ => pub s
  | Aead x k n ad pt => (x = true -> pub n) /\ ((pub k /\ pub pt) \/ (made t /\ (pub k -> pub pt)))
  end.

Lemma pub_kdec e s ct : pub s -> pub (kdec e s ct).
Proof.
  intros S. unfold kdec. destruct ct as [| | | | |e' pk r| | |]; try exact S.
  destruct pk as [| | | |e2 s'| | | |]; try exact S.
  destruct (_ && _ && _); [|exact S]. cbn [pub]. right. split; [reflexivity|exact S].
Qed.

Lemma pub_s_pid g x : pub (s_pid g x).
Proof. unfold s_pid. cbn [pub]. right. right. right. exists g, x. reflexivity. Qed.

(** The sent values of an event are bounded if what it received was. *)
Lemma pub_step tr e : (forall t, knows cfg tr t -> pub t) -> valid cfg (e :: tr) -> In e tf ->
  forall t, In t (sent cfg e) -> pub t.
Proof.
  intros K V I t T. destruct e as [run A p|run B k bno g m|run A p m|B k g m ctr|run A p m ctr d|n|g ck l]; cbn [sent] in T.
  - assert (M1 : made (y_pidct (fst (s_init run A p)))).
    { exists (EInit run A p). split; [exact I|]. cbn [sealed]. left. reflexivity. }
    assert (M2 : made (y_auth (fst (s_init run A p)))).
    { exists (EInit run A p). split; [exact I|]. cbn [sealed]. right. left. reflexivity. }
    destruct (s_init run A p) as [m ck] eqn:E. cbn [fst] in *.
    destruct (init_spec _ _ _ _ _ E) as (E1 & E2 & E3 & E4 & E5 & _). unfold ih_fields in T.
    destruct T as [T|[T|[T|[T|[T|[]]]]]]; subst t.
    + rewrite E1. left. exact Logic.I.
    + rewrite E2. exact Logic.I.
    + rewrite E3. exact Logic.I.
    + rewrite E4 in *. unfold s_tag. split; [discriminate|]. right. split; [exact M1|]. intros _. apply pub_s_pid.
    + rewrite E5 in *. split; [discriminate|]. right. split; [exact M2|]. intros _. exact Logic.I.
  - assert (KM : forall t, In t (ih_fields m) -> pub t).
    { inversion V; subst. intros u U. apply K. auto. }
    destruct (s_resp (cfg B) run B k bno g m) as [[[q rh] ck]|] eqn:E; [|destruct T].
    assert (M1 : made (z_auth rh)).
    { exists (EResp run B k bno g m). split; [exact I|]. cbn [sealed]. rewrite E. left. reflexivity. }
    assert (M2 : made (z_biscuit rh)).
    { exists (EResp run B k bno g m). split; [exact I|]. cbn [sealed]. rewrite E. right. left. reflexivity. }
    destruct (resp_spec _ _ _ _ _ _ _ _ _ _ E) as (pt & _ & _ & _ & _ & E1 & E2 & E3 & E4 & _ & E6 & E7).
    unfold rh_fields in T. destruct T as [T|[T|[T|[T|[T|[T|[]]]]]]]; subst t.
    + rewrite E1. left. exact Logic.I.
    + rewrite E2. apply KM. left. reflexivity.
    + rewrite E3. exact Logic.I.
    + rewrite E4. exact Logic.I.
    + rewrite E7 in *. split; [discriminate|]. right. split; [exact M1|]. intros _. exact Logic.I.
    + rewrite E6 in *. unfold s_biscuit. split; [intros _; left; exact Logic.I|]. right. split; [exact M2|].
      intros [[]|R]. split; [apply pub_s_pid|]. split; [exact Logic.I|].
      assert (L : leaked ck). { left. exists run, B, k, bno, g, m, q, rh, ck. auto. }
      destruct (resp_spec _ _ _ _ _ _ _ _ _ _ E) as (_ & _ & _ & _ & _ & _ & _ & _ & _ & E5 & _).
      destruct (chain_is_hash g (pkey B) (hello_all (pkey B) m (kdec false (skey B) (y_sctr m)) (e_pk q) (e_psk q) ++
        answer_items (y_epki m) (z_sidr rh) (z_sidi rh) (e_pk q) (Shk true (y_epki m) (Nm (NCoin run false))) (z_ecti rh)
          (Shk false (e_pk q) (Nm (NCoin run true))) (z_scti rh))) as (k' & d' & X).
      rewrite X in E5. rewrite E5 in *. right. exact L.
  - assert (KM : forall t, In t (rh_fields m) -> pub t).
    { inversion V; subst. intros u U. apply K. auto. }
    destruct (s_conf run A p m) as [[ic ck]|] eqn:E; [|destruct T].
    assert (M1 : made (w_auth ic)).
    { exists (EConf run A p m). split; [exact I|]. cbn [sealed]. rewrite E. left. reflexivity. }
    destruct (conf_spec _ _ _ _ _ _ E) as (pt & _ & _ & E1 & E2 & E3 & E4 & _).
    unfold ic_fields in T. destruct T as [T|[T|[T|[T|[]]]]]; subst t.
    + rewrite E1. apply KM. right. left. reflexivity.
    + rewrite E2. apply KM. left. reflexivity.
    + rewrite E3. apply KM. do 5 right. left. reflexivity.
    + rewrite E4 in *. split; [discriminate|]. right. split; [exact M1|]. intros _. exact Logic.I.
  - assert (KM : forall t, In t (ic_fields m) -> pub t).
    { inversion V; subst. intros u U. apply K. auto. }
    destruct (s_done (cfg B) B k g m) as [[q ck]|] eqn:E; [|destruct T].
    assert (M1 : made (s_empty (e_alg q) ck ctr)).
    { exists (EDone B k g m ctr). split; [exact I|]. cbn [sealed]. rewrite E. left. reflexivity. }
    destruct T as [T|[T|[T|[]]]]; subst t.
    + apply KM. left. reflexivity.
    + exact Logic.I.
    + split; [discriminate|]. right. split; [exact M1|]. intros _. exact Logic.I.
  - destruct T.
  - destruct T as [T|[]]; subst t. right. exact I.
  - destruct T as [T|[]]; subst t. right. right. left. exists g, ck, l. auto.
Qed.

Lemma pub_known tr : (forall e t, In e tr -> In t (sent cfg e) -> pub t) -> forall t, knows cfg tr t -> pub t.
Proof.
  intros Sn t K. induction K as [e t E T|b|i|A|a b _ Ia _ Ib|a b _ Ia|a b _ Ia|g k d _ Ik _ Id|e s _ Is|e pk r _ _ _ _
    |e pk r _ _ _ Ir|e s ct _ Is _ _|x k n ad pt _ Ik _ In_ _ _ _ Ip|x k n ad pt _ Ia _ Ik|k n ad pt _ Ia].
  - eauto.
  - exact Logic.I.
  - left. exact Logic.I.
  - exact Logic.I.
  - split; assumption.
  - exact (proj1 Ia).
  - exact (proj2 Ia).
  - left. auto.
  - exact Logic.I.
  - exact Logic.I.
  - left. exact Ir.
  - apply pub_kdec. exact Is.
  - split; [intros _; exact In_|]. left. auto.
  - destruct Ia as [_ [[_ X]|[_ X]]]; auto.
  - exact (proj1 Ia eq_refl).
Qed.

Lemma valid_tail e tr : valid cfg (e :: tr) -> valid cfg tr.
Proof. intros V. inversion V; assumption. Qed.

Lemma known_pub_upto tr : valid cfg tr -> incl tr tf -> forall t, knows cfg tr t -> pub t.
Proof.
  induction tr as [|e tr IH]; intros V I; apply pub_known.
  - intros e t [].
  - assert (K : forall t, knows cfg tr t -> pub t).
    { apply IH; [exact (valid_tail _ _ V)|]. intros x X. apply I. now right. }
    intros e' t [->|E'] T.
    + apply (pub_step tr e'); auto. apply I. now left.
    + apply K. exact (k_sent cfg tr e' t E' T).
Qed.
End For.

Theorem known_pub tr t : valid cfg tr -> knows cfg tr t -> pub tr t.
Proof. intros V. apply known_pub_upto; [exact V|]. apply incl_refl. Qed.

Lemma valid_suffix tr2 tr1 : valid cfg (tr2 ++ tr1) -> valid cfg tr1.
Proof. induction tr2 as [|e l IH]; intros V; [exact V|]. apply IH. exact (valid_tail _ _ V). Qed.
Lemma valid_split tr e : valid cfg tr -> In e tr -> exists tr2 tr1, tr = tr2 ++ e :: tr1 /\ valid cfg (e :: tr1).
Proof.
  intros V I. destruct (in_split _ _ I) as (a & b & E). exists a, b. split; [exact E|].
  rewrite E in V. exact (valid_suffix _ _ V).
Qed.

(** The chaining key of a completed handshake ends with a sealed value. *)
Lemma completed_shape tr g ck : completed cfg tr g ck -> exists c k n ad pt, ck = H g c (Aead false k n ad pt).
Proof.
  intros [(run & A & p & m & ic & _ & E & ->)|(B & k & g' & m & ctr & q & _ & E & ->)].
  - destruct (conf_spec _ _ _ _ _ _ E) as (pt & _ & _ & _ & _ & _ & E1 & E2).
    rewrite E2. unfold conf_items. 
    match goal with |- context [chain _ _ (?a ++ [?b; ?c; ?d; ?e])] => change [b; c; d; e] with ([b; c; d] ++ [e]) end.
    rewrite app_assoc, chain_snoc. unfold s_ckmix. rewrite E1. unfold s_tag. eauto 10.
  - destruct (done_spec _ _ _ _ _ _ _ E) as (n & bno & c0 & pt & _ & _ & E1 & E2). cbn zeta in *.
    rewrite E2. unfold s_ckmix at 1. rewrite E1. unfold s_tag. eauto 10.
Qed.
Lemma osk_shape tr g ck l : valid cfg tr -> In (EOsk g ck l) tr ->
  (exists ds, l = s_ds g ds) /\ exists c k n ad pt, ck = H g c (Aead false k n ad pt).
Proof.
  intros V I. destruct (valid_split _ _ V I) as (tr2 & tr1 & _ & V1). inversion V1; subst.
  split; [eauto|]. eapply completed_shape; eauto.
Qed.

Lemma leaked_chain tr g pk l : valid cfg tr -> leaked tr (chain g pk l) ->
  exists run B k bno m q rh, In (EResp run B k bno g m) tr /\ pk = pkey B /\ revealed tr (NBk B k) /\
    s_resp (cfg B) run B k bno g m = Some (q, rh, chain g pk l).
Proof.
  intros V [(run & B & k & bno & g' & m & q & rh & ck & I & E & R & X)|[(g' & ck & d & I & X)|(g' & x & X)]].
  - destruct (resp_spec _ _ _ _ _ _ _ _ _ _ E) as (pt & _ & _ & _ & _ & _ & _ & _ & _ & E5 & _ & _). 
    rewrite <- X in E5. destruct (chain_inj _ _ _ _ _ _ E5) as (G & P & _). subst g' pk.
    exists run, B, k, bno, m, q, rh. rewrite X. auto.
  - exfalso. destruct (osk_shape _ _ _ _ V I) as (_ & c & k' & n & ad & pt & ->).
    destruct l as [|y l _] using rev_ind.
    + unfold chain, chain_from, s_start, s_ckinit in X. cbn [fold_left] in X. congruence.
    + rewrite chain_snoc in X. unfold s_ckmix, s_mix in X. congruence.
  - exfalso. destruct l as [|y l _] using rev_ind.
    + unfold chain, chain_from, s_start, s_ckinit, s_pid, s_peerid in X. cbn [fold_left] in X.
      assert (Y : Lit (str "chaining key init") = Lit (str "peer id")) by congruence. discriminate Y.
    + rewrite chain_snoc in X. unfold s_ckmix, s_mix, s_pid, s_peerid in X. congruence.
Qed.
Lemma leaked_hash tr g pk l d : leaked tr (H g (chain g pk l) d) -> In (EOsk g (chain g pk l) d) tr.
Proof.
  intros [(run & B & k & bno & g' & m & q & rh & ck & I & E & R & X)|[(g' & ck & d' & I & X)|(g' & x & X)]].
  - exfalso. destruct (resp_spec _ _ _ _ _ _ _ _ _ _ E) as (pt & _ & _ & _ & _ & _ & _ & _ & _ & E5 & _ & _).
    rewrite E5 in X. symmetry in X. exact (chain_hash_neq _ _ _ _ _ _ _ X).
  - assert (g' = g) by congruence. assert (ck = chain g pk l) by congruence. assert (d' = d) by congruence.
    subst. exact I.
  - exfalso. assert (Y : chain g pk l = s_peerid g') by (unfold s_pid in X; congruence).
    assert (D := f_equal ldepth Y). rewrite chain_depth in D. cbn in D. lia.
Qed.

(** A chaining key can be derived only if all that was mixed in can be, or a biscuit that holds one of
    its beginnings was opened. *)
Definition biscuit_leak (tr : list event) (g : halg) (pk : term) (l : list term) : Prop :=
  exists pre post run B k bno m q rh, l = pre ++ post /\ In (EResp run B k bno g m) tr /\ pk = pkey B /\
    revealed tr (NBk B k) /\ s_resp (cfg B) run B k bno g m = Some (q, rh, chain g pk pre).

Lemma pub_chain tr g pk l : valid cfg tr -> pub tr (chain g pk l) ->
  Forall (pub tr) l \/ biscuit_leak tr g pk l.
Proof.
  intros V. induction l as [|x l IH] using rev_ind; intros Pb; [left; constructor|].
  assert (L : leaked tr (chain g pk (l ++ [x])) -> biscuit_leak tr g pk (l ++ [x])).
  { intros Lk. destruct (leaked_chain _ _ _ _ V Lk) as (run & B & k & bno & m & q & rh & I & E & R & X).
    exists (l ++ [x]), [], run, B, k, bno, m, q, rh. rewrite app_nil_r. auto. }
  rewrite chain_snoc in Pb. unfold s_ckmix in Pb. cbn [pub] in Pb.
  destruct Pb as [[[[Pk _]|Lk] Px]|Lk].
  - destruct (IH Pk) as [F|(pre & post & run & B & k & bno & m & q & rh & -> & X)].
    + left. apply Forall_app. split; [exact F|]. constructor; [exact Px|constructor].
    + right. exists pre, (post ++ [x]), run, B, k, bno, m, q, rh. rewrite app_assoc. auto.
  - exfalso. apply leaked_hash in Lk. destruct (osk_shape _ _ _ _ V Lk) as ((ds & E) & _).
    symmetry in E. exact (ds_mix _ _ _ E).
  - right. apply L. rewrite chain_snoc. exact Lk.
Qed.
(** ... and so for the keys derived from it. *)
Lemma pub_key tr g pk l d : valid cfg tr -> pub tr (H g (chain g pk l) d) ->
  Forall (pub tr) l \/ biscuit_leak tr g pk l \/ In (EOsk g (chain g pk l) d) tr.
Proof.
  intros V [[Pk _]|Lk].
  - destruct (pub_chain _ _ _ _ V Pk); auto.
  - right. right. exact (leaked_hash _ _ _ _ _ Lk).
Qed.
End Bound.
