(** Reasoning about fallible state transformers and the tables of the server. *)
From Verif Require Import Base ConstTime Prims HashDomains Wire Server.
Local Open Scope m_scope.

(** [wp m Q s]: running [m] from [s] ends in a state and outcome satisfying [Q]. *)
Definition wp {A} (m : M A) (Q : srv -> res err A -> Prop) (s : srv) : Prop :=
  Q (fst (m s)) (snd (m s)).

Lemma wp_run {A} (m : M A) Q s s' r : wp m Q s -> m s = (s', r) -> Q s' r.
Proof. unfold wp. intros H E. rewrite E in H. exact H. Qed.

Lemma wp_of_run {A} (m : M A) (Q : srv -> res err A -> Prop) s :
  (forall s' r, m s = (s', r) -> Q s' r) -> wp m Q s.
Proof. unfold wp. intros H. apply H. apply surjective_pairing. Qed.

Lemma wp_bind {A B} (m : M A) (k : A -> M B) Q s :
  wp m (fun s' r => match r with
                    | Ok a => wp (k a) Q s'
                    | Err e => Q s' (Err e)
                    | Panic => Q s' Panic
                    end) s ->
  wp (bind m k) Q s.
Proof.
  unfold wp, bind. destruct (m s) as [s' [a|e|]]; simpl; auto.
Qed.

Lemma wp_mono {A} (m : M A) (Q Q' : srv -> res err A -> Prop) s :
  wp m Q s -> (forall s' r, Q s' r -> Q' s' r) -> wp m Q' s.
Proof. unfold wp. auto. Qed.

Lemma wp_conj {A} (m : M A) (Q Q' : srv -> res err A -> Prop) s :
  wp m Q s -> wp m Q' s -> wp m (fun s' r => Q s' r /\ Q' s' r) s.
Proof. unfold wp. auto. Qed.

Lemma wp_ret {A} (a : A) (Q : srv -> res err A -> Prop) s : Q s (Ok a) -> wp (ret a) Q s.
Proof. auto. Qed.
Lemma wp_fail {A} e (Q : srv -> res err A -> Prop) s : Q s (Err e) -> wp (fail e) Q s.
Proof. auto. Qed.
Lemma wp_get (Q : srv -> res err srv -> Prop) s : Q s (Ok s) -> wp get Q s.
Proof. auto. Qed.
Lemma wp_modify f (Q : srv -> res err unit -> Prop) s :
  Q (f s) (Ok tt) -> wp (modify f) Q s.
Proof. auto. Qed.
Lemma wp_need {A} e (o : option A) (Q : srv -> res err A -> Prop) s :
  (forall a, o = Some a -> Q s (Ok a)) -> (o = None -> Q s (Err e)) -> wp (need e o) Q s.
Proof. destruct o; unfold need; intros H H'; [apply wp_ret|apply wp_fail]; auto. Qed.
Lemma wp_ensure b e (Q : srv -> res err unit -> Prop) s :
  (b = true -> Q s (Ok tt)) -> (b = false -> Q s (Err e)) -> wp (ensure b e) Q s.
Proof. destruct b; unfold ensure; intros H H'; [apply wp_ret|apply wp_fail]; auto. Qed.
Lemma wp_unwrap {A} (o : option A) a (Q : srv -> res err A -> Prop) s :
  o = Some a -> Q s (Ok a) -> wp (unwrap o) Q s.
Proof. intros -> H. exact H. Qed.

(** * Views of a server state *)

Definition pe (s : srv) (p : nat) : option peer := nth_error (s_peers s) p.
Definition ix (s : srv) (k : ikey) : option nat := idx_get k (s_index s).
(** Everything except peers and index. *)
Definition rest (s : srv) :=
  (s_sskm s, s_spkm s, s_bctr s, s_bk0 s, s_bk1 s, s_khkey s, s_poll_off s,
   s_cs0 s, s_cs1 s).
Definition npeers (s : srv) : nat := length (s_peers s).

Lemma srv_eta s s' :
  s_peers s' = s_peers s -> s_index s' = s_index s -> rest s' = rest s -> s' = s.
Proof.
  destruct s, s'. unfold rest. cbn. intros -> -> [=]. congruence.
Qed.

Lemma ikey_eqb_eq a b : ikey_eqb a b = true <-> a = b.
Proof.
  destruct a, b; simpl; try (split; [discriminate|congruence]);
    rewrite bytes_eqb_eq; split; congruence.
Qed.
Lemma ikey_eqb_refl a : ikey_eqb a a = true.
Proof. now apply ikey_eqb_eq. Qed.
Lemma ikey_eqb_neq a b : ikey_eqb a b = false <-> a <> b.
Proof. rewrite <- ikey_eqb_eq. destruct (ikey_eqb a b); split; congruence. Qed.
Lemma ikey_eqb_sym a b : ikey_eqb a b = ikey_eqb b a.
Proof.
  destruct (ikey_eqb b a) eqn:E.
  - apply ikey_eqb_eq in E. subst. apply ikey_eqb_refl.
  - apply ikey_eqb_neq in E. apply ikey_eqb_neq. congruence.
Qed.

Lemma idx_get_del k k' l :
  idx_get k (idx_del k' l) = if ikey_eqb k k' then None else idx_get k l.
Proof.
  induction l as [|[k2 v] l IH]; simpl.
  - now destruct (ikey_eqb k k').
  - destruct (ikey_eqb k' k2) eqn:E; simpl.
    + rewrite IH. apply ikey_eqb_eq in E. subst k2.
      destruct (ikey_eqb k k'); reflexivity.
    + destruct (ikey_eqb k k2) eqn:F.
      * apply ikey_eqb_eq in F. subst k2. rewrite ikey_eqb_sym in E. now rewrite E.
      * exact IH.
Qed.

Lemma idx_get_set k k' v l :
  idx_get k (idx_set k' v l) = if ikey_eqb k k' then Some v else idx_get k l.
Proof.
  unfold idx_set. simpl. rewrite idx_get_del. now destruct (ikey_eqb k k').
Qed.

(** A state that differs from [s] by peer [p] being [x'] and the index being [f]. *)
Record st_rel (s s' : srv) (p : nat) (x' : peer) (f : ikey -> option nat) : Prop := {
  sr_pe : forall q, pe s' q = if Nat.eqb p q then Some x' else pe s q;
  sr_ix : forall k, ix s' k = f k;
  sr_rest : rest s' = rest s;
  sr_n : npeers s' = npeers s
}.

Definition with_peer (p : nat) (x : peer) (s : srv) : srv :=
  set_peers (upd p x (s_peers s)) s.

Lemma pe_lt s p x : pe s p = Some x -> p < npeers s.
Proof. intros H. apply nth_error_Some. unfold pe in H. congruence. Qed.

Lemma pe_with_peer s p x x' q : pe s p = Some x ->
  pe (with_peer p x' s) q = if Nat.eqb p q then Some x' else pe s q.
Proof.
  intros H. unfold pe, with_peer. cbn [s_peers set_peers]. rewrite nth_error_upd.
  destruct (Nat.eqb_spec p q) as [->|E]; [|reflexivity].
  unfold pe in H. now rewrite H.
Qed.

Lemma with_peer_rel s p x x' : pe s p = Some x ->
  st_rel s (with_peer p x' s) p x' (ix s).
Proof.
  intros H. split; try reflexivity.
  - intros q. eapply pe_with_peer; eauto.
  - unfold npeers, with_peer. cbn [s_peers set_peers]. apply upd_length.
Qed.

Lemma wp_get_peer p x (Q : srv -> res err peer -> Prop) s :
  pe s p = Some x -> Q s (Ok x) -> wp (get_peer p) Q s.
Proof. unfold pe, wp, get_peer. intros ->. auto. Qed.

Lemma wp_put_peer p x x' (Q : srv -> res err unit -> Prop) s :
  pe s p = Some x -> Q (with_peer p x' s) (Ok tt) -> wp (put_peer p x') Q s.
Proof.
  intros H. pose proof (pe_lt _ _ _ H) as L. unfold npeers in L.
  unfold wp, put_peer. rewrite (proj2 (Nat.ltb_lt _ _) L). auto.
Qed.

Lemma wp_upd_peer p x f (Q : srv -> res err unit -> Prop) s :
  pe s p = Some x -> Q (with_peer p (f x) s) (Ok tt) -> wp (upd_peer p f) Q s.
Proof.
  intros H HQ. unfold upd_peer. apply wp_bind. eapply wp_get_peer; eauto.
  eapply wp_put_peer; eauto.
Qed.

(** The index after the removal of the session id [id] unless [keep]. *)
Definition ix_drop (f : ikey -> option nat) (keep : bool) (id : bytes) (k : ikey) : option nat :=
  if keep then f k else if ikey_eqb k (KSid id) then None else f k.

Definition hs_sid (h : ihs) : bytes := hc_sidi (hs_cor h).

Definition ix_hs_take (f : ikey -> option nat) (x : peer) : ikey -> option nat :=
  match p_handshake x with
  | Some h => ix_drop f (ses_has_id (hs_sid h) (p_session x)) (hs_sid h)
  | None => f
  end.
Definition ix_ses_take (f : ikey -> option nat) (x : peer) : ikey -> option nat :=
  match p_session x with
  | Some u => ix_drop f (hs_has_id (se_sidm u) (p_handshake x)) (se_sidm u)
  | None => f
  end.
Definition ix_add (f : ikey -> option nat) (id : bytes) (p : nat) (k : ikey) : option nat :=
  if ikey_eqb k (KSid id) then Some p else f k.

Lemma wp_hs_take p x (Q : srv -> res err (option ihs) -> Prop) s :
  pe s p = Some x ->
  (forall s', st_rel s s' p (set_handshake None x) (ix_hs_take (ix s) x) ->
              Q s' (Ok (p_handshake x))) ->
  wp (hs_take p) Q s.
Proof.
  intros H HQ. unfold hs_take. apply wp_bind. eapply wp_get_peer; eauto.
  apply wp_bind. eapply wp_put_peer; eauto.
  pose proof (with_peer_rel s p x (set_handshake None x) H) as R.
  set (s1 := with_peer p (set_handshake None x) s) in *.
  assert (pe s1 p = Some (set_handshake None x)) as H1.
  { rewrite (sr_pe _ _ _ _ _ R), Nat.eqb_refl. reflexivity. }
  apply wp_bind. unfold ix_hs_take in HQ.
  destruct (p_handshake x) as [h|] eqn:E.
  - unfold unregister_session_if_vacant. apply wp_bind. eapply wp_get_peer; eauto.
    cbn [p_session p_handshake set_handshake].
    change (hc_sidi (hs_cor h)) with (hs_sid h).
    destruct (ses_has_id (hs_sid h) (p_session x)) eqn:K.
    + apply wp_ret, wp_ret, HQ. unfold ix_drop. exact R.
    + cbn [hs_has_id]. unfold unregister_session. apply wp_modify, wp_ret, HQ.
      destruct R as [R1 R2 R3 R4]. split; auto.
      intros k. unfold ix. cbn [s_index set_index]. rewrite idx_get_del. unfold ix_drop.
      reflexivity.
  - apply wp_ret, wp_ret, HQ. exact R.
Qed.

Lemma wp_ses_take p x (Q : srv -> res err (option session) -> Prop) s :
  pe s p = Some x ->
  (forall s', st_rel s s' p (set_session None x) (ix_ses_take (ix s) x) ->
              Q s' (Ok (p_session x))) ->
  wp (ses_take p) Q s.
Proof.
  intros H HQ. unfold ses_take. apply wp_bind. eapply wp_get_peer; eauto.
  apply wp_bind. eapply wp_put_peer; eauto.
  pose proof (with_peer_rel s p x (set_session None x) H) as R.
  set (s1 := with_peer p (set_session None x) s) in *.
  assert (pe s1 p = Some (set_session None x)) as H1.
  { rewrite (sr_pe _ _ _ _ _ R), Nat.eqb_refl. reflexivity. }
  apply wp_bind. unfold ix_ses_take in HQ.
  destruct (p_session x) as [u|] eqn:E.
  - unfold unregister_session_if_vacant. apply wp_bind. eapply wp_get_peer; eauto.
    cbn [p_session p_handshake set_session ses_has_id].
    destruct (hs_has_id (se_sidm u) (p_handshake x)) eqn:K.
    + apply wp_ret, wp_ret, HQ. unfold ix_drop. exact R.
    + unfold unregister_session. apply wp_modify, wp_ret, HQ.
      destruct R as [R1 R2 R3 R4]. split; auto.
      intros k. unfold ix. cbn [s_index set_index]. rewrite idx_get_del. unfold ix_drop.
      reflexivity.
  - apply wp_ret, wp_ret, HQ. exact R.
Qed.

Lemma st_rel_trans s s1 s2 p x1 x2 f1 f2 :
  st_rel s s1 p x1 f1 -> st_rel s1 s2 p x2 f2 -> st_rel s s2 p x2 f2.
Proof.
  intros [A B C D] [A' B' C' D']. split; try congruence; auto.
  intros q. rewrite A', A. now destruct (Nat.eqb p q).
Qed.

Lemma st_rel_self s s' p x' f : st_rel s s' p x' f -> pe s' p = Some x'.
Proof. intros R. rewrite (sr_pe _ _ _ _ _ R), Nat.eqb_refl. reflexivity. Qed.

Lemma st_rel_refl s p x : pe s p = Some x -> st_rel s s p x (ix s).
Proof.
  intros H. split; auto. intros q. destruct (Nat.eqb_spec p q); congruence.
Qed.

Lemma st_rel_ext s s' p x f g :
  st_rel s s' p x f -> (forall k, f k = g k) -> st_rel s s' p x g.
Proof. intros [A B C D] E. split; auto. intros k. now rewrite B. Qed.

Lemma st_rel_eqpe s s' p x f q : st_rel s s' p x f -> p <> q -> pe s' q = pe s q.
Proof. intros R N. rewrite (sr_pe _ _ _ _ _ R). now rewrite (proj2 (Nat.eqb_neq _ _) N). Qed.

(** [register_session] *)
Lemma wp_register id p x (Q : srv -> res err unit -> Prop) s :
  pe s p = Some x ->
  (forall s', (ix s (KSid id) = None \/ ix s (KSid id) = Some p) ->
     st_rel s s' p x (ix_add (ix s) id p) -> Q s' (Ok tt)) ->
  (forall q, q <> p -> ix s (KSid id) = Some q -> Q s (Err ESidInUse)) ->
  wp (register_session id p) Q s.
Proof.
  intros H H1 H2. unfold register_session. apply wp_bind, wp_get.
  fold (ix s (KSid id)). destruct (ix s (KSid id)) as [q|] eqn:E.
  - destruct (Nat.eqb_spec q p) as [->|N].
    + apply wp_ret, H1; auto. eapply st_rel_ext; [now apply st_rel_refl|].
      intros k. unfold ix_add. destruct (ikey_eqb k (KSid id)) eqn:F; [|reflexivity].
      apply ikey_eqb_eq in F. now subst k.
    + apply wp_fail. eapply H2; eauto.
  - apply wp_modify, H1; auto. split; try reflexivity.
    + intros q. change (pe (set_index _ s) q) with (pe s q).
      destruct (Nat.eqb_spec p q); congruence.
    + intros k. unfold ix. cbn [s_index set_index]. apply idx_get_set.
Qed.

(** [SessionPtr::insert] *)
Lemma wp_ses_insert p x u (Q : srv -> res err unit -> Prop) s :
  pe s p = Some x ->
  (forall s',
     (ix_ses_take (ix s) x (KSid (se_sidm u)) = None \/
      ix_ses_take (ix s) x (KSid (se_sidm u)) = Some p) ->
     st_rel s s' p (set_session (Some u) x)
       (ix_add (ix_ses_take (ix s) x) (se_sidm u) p) ->
     Q s' (Ok tt)) ->
  (forall s' q, q <> p -> ix_ses_take (ix s) x (KSid (se_sidm u)) = Some q ->
     st_rel s s' p (set_session None x) (ix_ses_take (ix s) x) ->
     Q s' (Err ESidInUse)) ->
  wp (ses_insert p u) Q s.
Proof.
  intros H H1 H2. unfold ses_insert. apply wp_bind. eapply wp_ses_take; eauto.
  intros s1 R1. apply wp_bind.
  pose proof (st_rel_self _ _ _ _ _ R1) as P1.
  eapply wp_register; eauto.
  - intros s2 C R2. eapply wp_upd_peer; [eapply st_rel_self; eauto|].
    apply H1.
    + rewrite (sr_ix _ _ _ _ _ R1) in C. exact C.
    + eapply st_rel_trans; [exact R1|].
      eapply st_rel_trans; [exact R2|].
      eapply st_rel_ext; [eapply with_peer_rel; eapply st_rel_self; eauto|].
      intros k. rewrite (sr_ix _ _ _ _ _ R2). unfold ix_add.
      now rewrite (sr_ix _ _ _ _ _ R1).
  - intros q N E. eapply H2; eauto. now rewrite <- (sr_ix _ _ _ _ _ R1).
Qed.

(** [IniHsPtr::insert] *)
Definition ins_hs (h : ihs) (x : peer) : peer :=
  set_handshake (Some h) (set_init_req false (set_handshake None x)).
Lemma wp_hs_insert p x h (Q : srv -> res err unit -> Prop) s :
  pe s p = Some x ->
  (forall s',
     (ix s (KSid (hs_sid h)) = None \/ ix s (KSid (hs_sid h)) = Some p) ->
     st_rel s s' p (ins_hs h x) (ix_hs_take (ix_add (ix s) (hs_sid h) p) x) ->
     Q s' (Ok tt)) ->
  (forall q, q <> p -> ix s (KSid (hs_sid h)) = Some q -> Q s (Err ESidInUse)) ->
  wp (hs_insert p h) Q s.
Proof.
  intros H H1 H2. unfold hs_insert. change (hc_sidi (hs_cor h)) with (hs_sid h).
  apply wp_bind. eapply wp_register; eauto.
  intros s1 C R1. apply wp_bind. eapply wp_hs_take; [eapply st_rel_self; eauto|].
  intros s2 R2. apply wp_bind. eapply wp_upd_peer; [eapply st_rel_self; eauto|].
  pose proof (with_peer_rel s2 p _ (set_init_req false (set_handshake None x))
                (st_rel_self _ _ _ _ _ R2)) as R3.
  eapply wp_upd_peer; [eapply st_rel_self; eauto|].
  pose proof (with_peer_rel _ p _ (ins_hs h x) (st_rel_self _ _ _ _ _ R3)) as R4.
  apply H1; [exact C|].
  eapply st_rel_ext.
  - eapply st_rel_trans; [exact R1|]. eapply st_rel_trans; [exact R2|].
    eapply st_rel_trans; [exact R3|]. exact R4.
  - intros k. rewrite (sr_ix _ _ _ _ _ R3), (sr_ix _ _ _ _ _ R2).
    unfold ix_hs_take, ix_drop.
    destruct (p_handshake x) as [h0|]; rewrite ?(sr_ix _ _ _ _ _ R1); reflexivity.
Qed.

(** The known-response cache. *)
Definition ix_known_rm (f : ikey -> option nat) (x : peer) (k : ikey) : option nat :=
  match p_known x with
  | Some v => if ikey_eqb k (KKnown (kr_mac v)) then None else f k
  | None => f k
  end.
Lemma wp_known_remove p x (Q : srv -> res err (option known) -> Prop) s :
  pe s p = Some x ->
  (forall v, p_known x = Some v -> ix s (KKnown (kr_mac v)) <> None) ->
  (forall s', st_rel s s' p (set_known None x) (ix_known_rm (ix s) x) ->
     Q s' (Ok (p_known x))) ->
  wp (known_remove p) Q s.
Proof.
  intros H K HQ. unfold known_remove. apply wp_bind. eapply wp_get_peer; eauto.
  unfold ix_known_rm in HQ. destruct (p_known x) as [v|] eqn:E.
  - apply wp_bind. eapply wp_put_peer; eauto. apply wp_bind, wp_get, wp_bind.
    destruct (ix s (KKnown (kr_mac v))) as [q|] eqn:F; [|now elim (K v eq_refl)].
    eapply wp_unwrap.
    { change (idx_get (KKnown (kr_mac v)) (s_index (with_peer p (set_known None x) s)))
        with (ix s (KKnown (kr_mac v))). exact F. }
    apply wp_bind, wp_modify, wp_ret, HQ.
    destruct (with_peer_rel s p x (set_known None x) H) as [A B C D].
    split; auto. intros k. unfold ix. cbn [s_index set_index]. rewrite idx_get_del.
    reflexivity.
  - apply wp_ret, HQ. eapply st_rel_ext; [|reflexivity].
    replace (set_known None x) with x; [now apply st_rel_refl|].
    destruct x; cbn in *; now subst.
Qed.

Lemma wp_known_insert p x v (Q : srv -> res err unit -> Prop) s :
  pe s p = Some x ->
  (forall v, p_known x = Some v -> ix s (KKnown (kr_mac v)) <> None) ->
  (forall s', st_rel s s' p (set_known (Some v) x)
     (fun k => if ikey_eqb k (KKnown (kr_mac v)) then Some p else ix_known_rm (ix s) x k) ->
     Q s' (Ok tt)) ->
  wp (known_insert p v) Q s.
Proof.
  intros H K HQ. unfold known_insert. apply wp_bind. eapply wp_known_remove; eauto.
  intros s1 R1. apply wp_bind. eapply wp_upd_peer; [eapply st_rel_self; eauto|].
  apply wp_modify, HQ.
  pose proof (with_peer_rel s1 p _ (set_known (Some v) x) (st_rel_self _ _ _ _ _ R1)) as R2.
  eapply st_rel_trans; [exact R1|].
  change (set_known (Some v) (set_known None x)) with (set_known (Some v) x).
  destruct R2 as [A B C D]. split; auto.
  intros k. unfold ix at 1. cbn [s_index set_index]. rewrite idx_get_set.
  destruct (ikey_eqb k (KKnown (kr_mac v))); [reflexivity|].
  change (ix s1 k = ix_known_rm (ix s) x k). apply (sr_ix _ _ _ _ _ R1).
Qed.

(** Lookups do not change the state. *)
Lemma wp_lookup_handshake id (Q : srv -> res err (option nat) -> Prop) s :
  (forall p, ix s (KSid id) = Some p -> p < npeers s) ->
  (forall p x h, ix s (KSid id) = Some p -> pe s p = Some x -> p_handshake x = Some h ->
     hs_sid h = id -> Q s (Ok (Some p))) ->
  (Q s (Ok None)) ->
  wp (lookup_handshake id) Q s.
Proof.
  intros B H1 H2. unfold lookup_handshake. apply wp_bind, wp_get.
  fold (ix s (KSid id)). destruct (ix s (KSid id)) as [p|] eqn:E.
  - specialize (B p eq_refl). destruct (pe s p) as [x|] eqn:F.
    2:{ apply nth_error_None in F. unfold npeers in B. lia. }
    apply wp_bind. eapply wp_get_peer; eauto. apply wp_ret.
    destruct (hs_has_id id (p_handshake x)) eqn:G; [|exact H2].
    unfold hs_has_id in G. destruct (p_handshake x) as [h|] eqn:K; [|discriminate].
    apply bytes_eqb_eq in G. eapply H1; eauto.
  - apply wp_ret, H2.
Qed.

Lemma wp_lookup_session id (Q : srv -> res err (option nat) -> Prop) s :
  (forall p, ix s (KSid id) = Some p -> p < npeers s) ->
  (forall p x u, ix s (KSid id) = Some p -> pe s p = Some x -> p_session x = Some u ->
     se_sidm u = id -> Q s (Ok (Some p))) ->
  (Q s (Ok None)) ->
  wp (lookup_session id) Q s.
Proof.
  intros B H1 H2. unfold lookup_session. apply wp_bind, wp_get.
  fold (ix s (KSid id)). destruct (ix s (KSid id)) as [p|] eqn:E.
  - specialize (B p eq_refl). destruct (pe s p) as [x|] eqn:F.
    2:{ apply nth_error_None in F. unfold npeers in B. lia. }
    apply wp_bind. eapply wp_get_peer; eauto. apply wp_ret.
    destruct (ses_has_id id (p_session x)) eqn:G; [|exact H2].
    unfold ses_has_id in G. destruct (p_session x) as [u|] eqn:K; [|discriminate].
    apply bytes_eqb_eq in G. eapply H1; eauto.
  - apply wp_ret, H2.
Qed.
