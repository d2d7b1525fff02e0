(** Invariant of the server state, and its preservation by every protocol call. *)
From Verif Require Import Base ConstTime Prims HashDomains Wire Server Protocol Wp.
Local Open Scope m_scope.

Definition has_id (id : bytes) (x : peer) : bool :=
  ses_has_id id (p_session x) || hs_has_id id (p_handshake x).

Definition wf_hs (h : ihs) : Prop :=
  length (hs_tx_buf h) = 2500 /\ hs_tx_len h <= 2500 /\ length (hs_sid h) = 4 /\
  length (hs_epki h) = 800.
Definition wf_known (k : known) : Prop := length (kr_response k) = env_len ED_LEN.
Definition wf_ses (u : session) : Prop :=
  length (se_sidm u) = 4 /\ length (se_sidt u) = 4.

Record wf_peer (x : peer) : Prop := {
  wp_bu : length (p_biscuit_used x) = 12;
  wp_hs : forall h, p_handshake x = Some h -> wf_hs h;
  wp_ses : forall u, p_session x = Some u -> wf_ses u;
  wp_known : forall k, p_known x = Some k -> wf_known k
}.

(** What stays the same or only grows for a peer. *)
Record peer_evo (x x' : peer) : Prop := {
  pv_psk : p_psk x' = p_psk x;
  pv_spkt : p_spkt x' = p_spkt x;
  pv_alg : p_alg x' = p_alg x;
  pv_ds : p_ds x' = p_ds x;
  pv_bu : (le_dec (p_biscuit_used x) <= le_dec (p_biscuit_used x'))%N
}.

Record evo (s s' : srv) : Prop := {
  ev_sk : s_sskm s' = s_sskm s;
  ev_pk : s_spkm s' = s_spkm s;
  ev_kh : s_khkey s' = s_khkey s;
  ev_n : npeers s <= npeers s';
  ev_pe : forall p x, pe s p = Some x -> exists x', pe s' p = Some x' /\ peer_evo x x'
}.

Lemma peer_evo_refl x : peer_evo x x.
Proof. split; auto. reflexivity. Qed.
Lemma peer_evo_trans x y z : peer_evo x y -> peer_evo y z -> peer_evo x z.
Proof. intros [] []. split; try congruence. etransitivity; eassumption. Qed.
Lemma evo_refl s : evo s s.
Proof. split; auto. intros p x H. exists x. split; auto. apply peer_evo_refl. Qed.
Lemma evo_trans s1 s2 s3 : evo s1 s2 -> evo s2 s3 -> evo s1 s3.
Proof.
  intros [A B C D E] [A' B' C' D' E']. split; try congruence; [lia|].
  intros p x H. destruct (E p x H) as (y & Hy & V). destruct (E' p y Hy) as (z & Hz & W).
  exists z. split; auto. eapply peer_evo_trans; eauto.
Qed.

Section WithPrims.
Context (P : prims).

Record inv (s : srv) : Prop := {
  i_peer1 : forall id p, ix s (KPeer id) = Some p ->
    exists x, pe s p = Some x /\ pidt P x = id;
  i_peer2 : forall p x, pe s p = Some x -> ix s (KPeer (pidt P x)) = Some p;
  i_sid : forall id p, ix s (KSid id) = Some p ->
    exists x, pe s p = Some x /\ has_id id x = true;
  i_known1 : forall h p, ix s (KKnown h) = Some p ->
    exists x k, pe s p = Some x /\ p_known x = Some k /\ kr_mac k = h;
  i_known2 : forall p x k, pe s p = Some x -> p_known x = Some k ->
    ix s (KKnown (kr_mac k)) = Some p;
  i_bctr : length (s_bctr s) = 12;
  i_wf : forall p x, pe s p = Some x -> wf_peer x
}.

Lemma inv_lt s k p : inv s -> ix s k = Some p -> p < npeers s.
Proof.
  intros I H. destruct k.
  - destruct (i_peer1 _ I _ _ H) as (x & E & _). eapply pe_lt; eauto.
  - destruct (i_sid _ I _ _ H) as (x & E & _). eapply pe_lt; eauto.
  - destruct (i_known1 _ I _ _ H) as (x & k & E & _). eapply pe_lt; eauto.
Qed.

Lemma inv_pe s k p : inv s -> ix s k = Some p -> exists x, pe s p = Some x.
Proof.
  intros I H. pose proof (inv_lt _ _ _ I H) as L. unfold pe.
  destruct (nth_error (s_peers s) p) as [x|] eqn:E; [eauto|].
  apply nth_error_None in E. unfold npeers in L. lia.
Qed.

Lemma inv_step s s' p x x' f :
  inv s -> pe s p = Some x -> st_rel s s' p x' f ->
  pidt P x' = pidt P x ->
  (forall id, f (KPeer id) = ix s (KPeer id)) ->
  (forall id q, f (KSid id) = Some q ->
     (q <> p /\ ix s (KSid id) = Some q) \/ (q = p /\ has_id id x' = true)) ->
  (forall h q, f (KKnown h) = Some q ->
     (q <> p /\ ix s (KKnown h) = Some q) \/
     (q = p /\ exists k, p_known x' = Some k /\ kr_mac k = h)) ->
  (forall k, p_known x' = Some k -> f (KKnown (kr_mac k)) = Some p) ->
  (forall h q, q <> p -> ix s (KKnown h) = Some q -> f (KKnown h) = Some q) ->
  wf_peer x' ->
  inv s'.
Proof.
  intros I H R Hid F1 F2 F3 F4 F5 W. destruct R as [A B C D].
  split.
  - intros id q E. rewrite B, F1 in E. destruct (i_peer1 _ I _ _ E) as (y & Hy & Py).
    destruct (Nat.eq_dec p q) as [->|N].
    + exists x'. rewrite A, Nat.eqb_refl. split; auto. congruence.
    + exists y. rewrite A, (proj2 (Nat.eqb_neq _ _) N). auto.
  - intros q y E. rewrite A in E. rewrite B, F1. destruct (Nat.eqb_spec p q) as [->|N].
    + injection E as <-. rewrite Hid. now apply (i_peer2 _ I).
    + now apply (i_peer2 _ I).
  - intros id q E. rewrite B in E. destruct (F2 _ _ E) as [[N G]|[-> G]].
    + destruct (i_sid _ I _ _ G) as (y & Hy & Py). exists y.
      rewrite A, (proj2 (Nat.eqb_neq _ _) (not_eq_sym N)). auto.
    + exists x'. rewrite A, Nat.eqb_refl. auto.
  - intros id q E. rewrite B in E. destruct (F3 _ _ E) as [[N G]|[-> (k & G & G')]].
    + destruct (i_known1 _ I _ _ G) as (y & k & Hy & Py). exists y, k.
      rewrite A, (proj2 (Nat.eqb_neq _ _) (not_eq_sym N)). auto.
    + exists x', k. rewrite A, Nat.eqb_refl. auto.
  - intros q y k E G. rewrite A in E. rewrite B. destruct (Nat.eqb_spec p q) as [->|N].
    + injection E as <-. now apply F4.
    + apply F5; [auto|]. eapply (i_known2 _ I); eauto.
  - unfold rest in C. injection C as _ _ -> _ _ _ _ _ _. apply (i_bctr _ I).
  - intros q y E. rewrite A in E. destruct (Nat.eqb_spec p q) as [->|N].
    + now injection E as <-.
    + eapply (i_wf _ I); eauto.
Qed.

(** Steps that leave the cache alone. *)
Lemma inv_step_sid s s' p x x' f :
  inv s -> pe s p = Some x -> st_rel s s' p x' f ->
  pidt P x' = pidt P x -> p_known x' = p_known x ->
  (forall id, f (KPeer id) = ix s (KPeer id)) ->
  (forall h, f (KKnown h) = ix s (KKnown h)) ->
  (forall id q, f (KSid id) = Some q ->
     (q <> p /\ ix s (KSid id) = Some q) \/ (q = p /\ has_id id x' = true)) ->
  wf_peer x' ->
  inv s'.
Proof.
  intros I H R Hid Hk F1 F2 F3 W. eapply inv_step; eauto.
  - intros h q E. rewrite F2 in E. destruct (Nat.eq_dec q p) as [->|N]; [|auto].
    right. split; auto. destruct (i_known1 _ I _ _ E) as (y & k & Hy & K & M).
    rewrite H in Hy. injection Hy as <-. exists k. split; congruence.
  - intros k E. rewrite F2. apply (i_known2 _ I p x); congruence.
  - intros h q _ E. now rewrite F2.
Qed.

(** Steps that change a peer but not the index. *)
Lemma inv_with_peer s p x x' :
  inv s -> pe s p = Some x ->
  pidt P x' = pidt P x -> p_known x' = p_known x ->
  (forall id, has_id id x = true -> has_id id x' = true) ->
  wf_peer x' -> inv (with_peer p x' s).
Proof.
  intros I H Hid Hk Hh W.
  eapply inv_step_sid; eauto; try (now apply with_peer_rel with (x := x)); auto.
  intros id q E. destruct (Nat.eq_dec q p) as [->|N]; [|auto].
  right. split; auto. apply Hh. destruct (i_sid _ I _ _ E) as (y & Hy & G). congruence.
Qed.

Lemma evo_step s s' p x x' f :
  pe s p = Some x -> st_rel s s' p x' f -> peer_evo x x' -> evo s s'.
Proof.
  intros H [A B C D] V. unfold rest in C. injection C as E1 E2 _ _ _ E3 _ _ _.
  split; auto; [lia|].
  intros q y E. rewrite A. destruct (Nat.eqb_spec p q) as [->|N].
  - rewrite H in E. injection E as <-. eauto.
  - exists y. split; auto. apply peer_evo_refl.
Qed.

(** What every call guarantees. *)
Record good (s s' : srv) : Prop := {
  g_inv : inv s';
  g_evo : evo s s';
  g_n : npeers s' = npeers s
}.
Lemma good_refl s : inv s -> good s s.
Proof. intros I. split; auto. apply evo_refl. Qed.
Lemma good_trans s1 s2 s3 : good s1 s2 -> good s2 s3 -> good s1 s3.
Proof. intros [A B C] [A' B' C']. split; auto; [eapply evo_trans; eauto|congruence]. Qed.

Lemma good_frame s s' :
  inv s -> s_peers s' = s_peers s -> s_index s' = s_index s ->
  s_sskm s' = s_sskm s -> s_spkm s' = s_spkm s -> s_khkey s' = s_khkey s ->
  length (s_bctr s') = 12 -> good s s'.
Proof.
  intros I A B C D E F.
  assert (forall p, pe s' p = pe s p) as G by (intros p; unfold pe; now rewrite A).
  assert (forall k, ix s' k = ix s k) as G' by (intros k; unfold ix; now rewrite B).
  split.
  - destruct I. split; intros *; rewrite ?G, ?G'; eauto.
  - split; auto. { unfold npeers. rewrite A. lia. }
    intros p x H. exists x. rewrite G. split; auto. apply peer_evo_refl.
  - unfold npeers. now rewrite A.
Qed.

Lemma ses_has_id_refl u : ses_has_id (se_sidm u) (Some u) = true.
Proof. apply bytes_eqb_refl. Qed.
Lemma hs_has_id_refl h : hs_has_id (hs_sid h) (Some h) = true.
Proof. apply bytes_eqb_refl. Qed.

Lemma pidt_static x x' : p_spkt x' = p_spkt x -> p_alg x' = p_alg x -> pidt P x' = pidt P x.
Proof. unfold pidt. now intros -> ->. Qed.

Ltac wfp W := destruct W as [W1 W2 W3 W4]; split; cbn; auto; try congruence.

Lemma good_hs_take s s' p x :
  inv s -> pe s p = Some x ->
  st_rel s s' p (set_handshake None x) (ix_hs_take (ix s) x) -> good s s'.
Proof.
  intros I H R. split.
  - eapply inv_step_sid; eauto.
    + intros id. unfold ix_hs_take, ix_drop. destruct (p_handshake x); auto.
      now destruct (ses_has_id _ _).
    + intros id. unfold ix_hs_take, ix_drop. destruct (p_handshake x); auto.
      now destruct (ses_has_id _ _).
    + intros id q E. destruct (Nat.eq_dec q p) as [->|N].
      * right. split; auto. unfold has_id. cbn [p_session p_handshake set_handshake hs_has_id].
        unfold ix_hs_take, ix_drop in E. destruct (p_handshake x) as [h|] eqn:Eh.
        -- destruct (ses_has_id (hs_sid h) (p_session x)) eqn:Es.
           ++ destruct (i_sid _ I _ _ E) as (y & Hy & G). rewrite H in Hy.
              injection Hy as <-. unfold has_id in G. rewrite Eh in G. cbn [hs_has_id] in G.
              apply orb_true_iff in G. destruct G as [G|G]; [now rewrite G|].
              apply bytes_eqb_eq in G. unfold hs_sid in Es. rewrite G in Es. now rewrite Es.
           ++ destruct (ikey_eqb (KSid id) (KSid (hs_sid h))) eqn:F; [discriminate|].
              destruct (i_sid _ I _ _ E) as (y & Hy & G). rewrite H in Hy.
              injection Hy as <-. unfold has_id in G. rewrite Eh in G. cbn [hs_has_id] in G.
              apply orb_true_iff in G. destruct G as [G|G]; [now rewrite G|].
              apply bytes_eqb_eq in G. apply ikey_eqb_neq in F. elim F.
              unfold hs_sid. now rewrite G.
        -- destruct (i_sid _ I _ _ E) as (y & Hy & G). rewrite H in Hy.
           injection Hy as <-. unfold has_id in G. now rewrite Eh in G.
      * left. split; auto. unfold ix_hs_take, ix_drop in E.
        destruct (p_handshake x); auto. destruct (ses_has_id _ _); auto.
        destruct (ikey_eqb _ _); [discriminate|auto].
    + pose proof (i_wf _ I _ _ H) as W. wfp W.
  - eapply evo_step; eauto. split; auto. reflexivity.
  - apply (sr_n _ _ _ _ _ R).
Qed.

Lemma good_ses_take s s' p x :
  inv s -> pe s p = Some x ->
  st_rel s s' p (set_session None x) (ix_ses_take (ix s) x) -> good s s'.
Proof.
  intros I H R. split.
  - eapply inv_step_sid; eauto.
    + intros id. unfold ix_ses_take, ix_drop. destruct (p_session x); auto.
      now destruct (hs_has_id _ _).
    + intros id. unfold ix_ses_take, ix_drop. destruct (p_session x); auto.
      now destruct (hs_has_id _ _).
    + intros id q E. destruct (Nat.eq_dec q p) as [->|N].
      * right. split; auto. unfold has_id. cbn [p_session p_handshake set_session ses_has_id].
        unfold ix_ses_take, ix_drop in E. destruct (p_session x) as [u|] eqn:Eh.
        -- destruct (hs_has_id (se_sidm u) (p_handshake x)) eqn:Es.
           ++ destruct (i_sid _ I _ _ E) as (y & Hy & G). rewrite H in Hy.
              injection Hy as <-. unfold has_id in G. rewrite Eh in G. cbn [ses_has_id] in G.
              apply orb_true_iff in G. destruct G as [G|G]; [|now rewrite G].
              apply bytes_eqb_eq in G. rewrite G in Es. now rewrite Es.
           ++ destruct (ikey_eqb (KSid id) (KSid (se_sidm u))) eqn:F; [discriminate|].
              destruct (i_sid _ I _ _ E) as (y & Hy & G). rewrite H in Hy.
              injection Hy as <-. unfold has_id in G. rewrite Eh in G. cbn [ses_has_id] in G.
              apply orb_true_iff in G. destruct G as [G|G]; [|now rewrite G].
              apply bytes_eqb_eq in G. apply ikey_eqb_neq in F. elim F. now rewrite G.
        -- destruct (i_sid _ I _ _ E) as (y & Hy & G). rewrite H in Hy.
           injection Hy as <-. unfold has_id in G. now rewrite Eh in G.
      * left. split; auto. unfold ix_ses_take, ix_drop in E.
        destruct (p_session x); auto. destruct (hs_has_id _ _); auto.
        destruct (ikey_eqb _ _); [discriminate|auto].
    + pose proof (i_wf _ I _ _ H) as W. wfp W.
  - eapply evo_step; eauto. split; auto. reflexivity.
  - apply (sr_n _ _ _ _ _ R).
Qed.

Lemma good_ses_insert s s' p x u :
  inv s -> pe s p = Some x -> wf_ses u ->
  st_rel s s' p (set_session (Some u) x) (ix_add (ix_ses_take (ix s) x) (se_sidm u) p) ->
  good s s'.
Proof.
  intros I H U R. split.
  - eapply inv_step_sid; eauto.
    + intros id. unfold ix_add, ix_ses_take, ix_drop. cbn [ikey_eqb].
      destruct (p_session x); auto. now destruct (hs_has_id _ _).
    + intros id. unfold ix_add, ix_ses_take, ix_drop. cbn [ikey_eqb].
      destruct (p_session x); auto. now destruct (hs_has_id _ _).
    + intros id q E. unfold ix_add in E.
      destruct (ikey_eqb (KSid id) (KSid (se_sidm u))) eqn:F.
      { injection E as <-. right. split; auto. apply ikey_eqb_eq in F. injection F as ->.
        unfold has_id. cbn [p_session set_session]. now rewrite ses_has_id_refl. }
      unfold ix_ses_take, ix_drop in E.
      destruct (Nat.eq_dec q p) as [->|N].
      * right. split; auto. unfold has_id. cbn [p_session p_handshake set_session].
        destruct (p_session x) as [v|] eqn:Eh.
        -- destruct (hs_has_id (se_sidm v) (p_handshake x)) eqn:Es.
           ++ destruct (i_sid _ I _ _ E) as (y & Hy & G). rewrite H in Hy.
              injection Hy as <-. unfold has_id in G. rewrite Eh in G. cbn [ses_has_id] in G.
              apply orb_true_iff in G. destruct G as [G|G]; [|rewrite G; apply orb_true_r].
              apply bytes_eqb_eq in G. rewrite G in Es. rewrite Es. apply orb_true_r.
           ++ destruct (ikey_eqb (KSid id) (KSid (se_sidm v))) eqn:F'; [discriminate|].
              destruct (i_sid _ I _ _ E) as (y & Hy & G). rewrite H in Hy.
              injection Hy as <-. unfold has_id in G. rewrite Eh in G. cbn [ses_has_id] in G.
              apply orb_true_iff in G. destruct G as [G|G]; [|rewrite G; apply orb_true_r].
              apply bytes_eqb_eq in G. apply ikey_eqb_neq in F'. elim F'. now rewrite G.
        -- destruct (i_sid _ I _ _ E) as (y & Hy & G). rewrite H in Hy.
           injection Hy as <-. unfold has_id in G. rewrite Eh in G. cbn [ses_has_id orb] in G.
           rewrite G. apply orb_true_r.
      * left. split; auto.
        destruct (p_session x); auto. destruct (hs_has_id _ _); auto.
        destruct (ikey_eqb (KSid id) (KSid (se_sidm s0))); [discriminate|auto].
    + pose proof (i_wf _ I _ _ H) as W. wfp W.
  - eapply evo_step; eauto. split; auto. reflexivity.
  - apply (sr_n _ _ _ _ _ R).
Qed.

Lemma good_hs_insert s s' p x h :
  inv s -> pe s p = Some x -> wf_hs h ->
  st_rel s s' p (ins_hs h x) (ix_hs_take (ix_add (ix s) (hs_sid h) p) x) ->
  good s s'.
Proof.
  intros I H U R. split.
  - eapply inv_step_sid; eauto.
    + intros id. unfold ix_hs_take, ix_drop, ix_add. cbn [ikey_eqb].
      destruct (p_handshake x); auto. now destruct (ses_has_id _ _).
    + intros id. unfold ix_hs_take, ix_drop, ix_add. cbn [ikey_eqb].
      destruct (p_handshake x); auto. now destruct (ses_has_id _ _).
    + intros id q E.
      assert (ix_add (ix s) (hs_sid h) p (KSid id) = Some q /\
              (forall h0, p_handshake x = Some h0 -> hs_sid h0 = id ->
                 ses_has_id id (p_session x) = true)) as [E1 E2].
      { unfold ix_hs_take, ix_drop in E. destruct (p_handshake x) as [h0|].
        - destruct (ses_has_id (hs_sid h0) (p_session x)) eqn:Es.
          + split; auto. now intros h1 [= <-] <-.
          + destruct (ikey_eqb (KSid id) (KSid (hs_sid h0))) eqn:F; [discriminate|].
            split; auto. intros h1 [= <-] <-. now rewrite ikey_eqb_refl in F.
        - split; auto. discriminate. }
      unfold ix_add in E1. destruct (ikey_eqb (KSid id) (KSid (hs_sid h))) eqn:F.
      { injection E1 as <-. right. split; auto. apply ikey_eqb_eq in F. injection F as ->.
        unfold has_id. cbn [p_handshake ins_hs set_handshake]. rewrite hs_has_id_refl.
        apply orb_true_r. }
      destruct (Nat.eq_dec q p) as [->|N]; [|auto]. right. split; auto.
      unfold has_id. cbn [p_session ins_hs set_handshake set_init_req].
      destruct (i_sid _ I _ _ E1) as (y & Hy & G). rewrite H in Hy. injection Hy as <-.
      unfold has_id in G. apply orb_true_iff in G. destruct G as [G|G]; [now rewrite G|].
      unfold hs_has_id in G at 1. destruct (p_handshake x) as [h0|] eqn:Eh; [|discriminate].
      apply bytes_eqb_eq in G. now rewrite (E2 h0 eq_refl G).
    + pose proof (i_wf _ I _ _ H) as W. wfp W.
  - eapply evo_step; eauto. split; auto. reflexivity.
  - apply (sr_n _ _ _ _ _ R).
Qed.

Lemma good_known_remove s s' p x :
  inv s -> pe s p = Some x ->
  st_rel s s' p (set_known None x) (ix_known_rm (ix s) x) -> good s s'.
Proof.
  intros I H R. split.
  - eapply inv_step; eauto.
    + intros id. unfold ix_known_rm. now destruct (p_known x).
    + intros id q E. assert (ix s (KSid id) = Some q) as E1.
      { unfold ix_known_rm in E. destruct (p_known x); auto. }
      destruct (Nat.eq_dec q p) as [->|N]; [|auto]. right. split; auto.
      destruct (i_sid _ I _ _ E1) as (y & Hy & G). rewrite H in Hy. now injection Hy as <-.
    + intros h q E. left. unfold ix_known_rm in E. destruct (p_known x) as [k|] eqn:K.
      * destruct (ikey_eqb (KKnown h) (KKnown (kr_mac k))) eqn:F; [discriminate|].
        split; auto. intros ->. destruct (i_known1 _ I _ _ E) as (y & k' & Hy & K' & M).
        rewrite H in Hy. injection Hy as <-. rewrite K in K'. injection K' as <-.
        apply ikey_eqb_neq in F. congruence.
      * split; auto. intros ->. destruct (i_known1 _ I _ _ E) as (y & k' & Hy & K' & M).
        congruence.
    + discriminate.
    + intros h q N E. unfold ix_known_rm. destruct (p_known x) as [k|] eqn:K; auto.
      destruct (ikey_eqb (KKnown h) (KKnown (kr_mac k))) eqn:F; auto.
      apply ikey_eqb_eq in F. injection F as ->. rewrite (i_known2 _ I p x k H K) in E.
      congruence.
    + pose proof (i_wf _ I _ _ H) as W. wfp W.
  - eapply evo_step; eauto. split; auto. reflexivity.
  - apply (sr_n _ _ _ _ _ R).
Qed.

Lemma good_known_insert s s' p x v :
  inv s -> pe s p = Some x -> wf_known v -> ix s (KKnown (kr_mac v)) = None ->
  st_rel s s' p (set_known (Some v) x)
     (fun k => if ikey_eqb k (KKnown (kr_mac v)) then Some p else ix_known_rm (ix s) x k) ->
  good s s'.
Proof.
  intros I H Wv Nv R. split.
  - eapply inv_step; eauto.
    + intros id. unfold ix_known_rm. cbn [ikey_eqb]. now destruct (p_known x).
    + intros id q E. assert (ix s (KSid id) = Some q) as E1.
      { unfold ix_known_rm in E. cbn [ikey_eqb] in E. destruct (p_known x); auto. }
      destruct (Nat.eq_dec q p) as [->|N]; [|auto]. right. split; auto.
      destruct (i_sid _ I _ _ E1) as (y & Hy & G). rewrite H in Hy. now injection Hy as <-.
    + intros h q E. cbn beta in E.
      destruct (ikey_eqb (KKnown h) (KKnown (kr_mac v))) eqn:F0.
      { injection E as <-. right. split; auto. apply ikey_eqb_eq in F0. injection F0 as ->.
        exists v. auto. }
      left. unfold ix_known_rm in E. destruct (p_known x) as [k|] eqn:K.
      * destruct (ikey_eqb (KKnown h) (KKnown (kr_mac k))) eqn:F; [discriminate|].
        split; auto. intros ->. destruct (i_known1 _ I _ _ E) as (y & k' & Hy & K' & M).
        rewrite H in Hy. injection Hy as <-. rewrite K in K'. injection K' as <-.
        apply ikey_eqb_neq in F. congruence.
      * split; auto. intros ->. destruct (i_known1 _ I _ _ E) as (y & k' & Hy & K' & M).
        congruence.
    + cbn [p_known set_known]. intros k [= <-]. now rewrite ikey_eqb_refl.
    + intros h q N E. cbn beta.
      destruct (ikey_eqb (KKnown h) (KKnown (kr_mac v))) eqn:F0.
      { apply ikey_eqb_eq in F0. injection F0 as ->. congruence. }
      unfold ix_known_rm. destruct (p_known x) as [k|] eqn:K; auto.
      destruct (ikey_eqb (KKnown h) (KKnown (kr_mac k))) eqn:F; auto.
      apply ikey_eqb_eq in F. injection F as ->. rewrite (i_known2 _ I p x k H K) in E.
      congruence.
    + pose proof (i_wf _ I _ _ H) as W. wfp W.
  - eapply evo_step; eauto. split; auto. reflexivity.
  - apply (sr_n _ _ _ _ _ R).
Qed.

(** Updates of one peer. *)
Lemma good_with_peer s p x x' :
  inv s -> pe s p = Some x ->
  peer_evo x x' -> p_known x' = p_known x ->
  (forall id, has_id id x = true -> has_id id x' = true) ->
  wf_peer x' -> good s (with_peer p x' s).
Proof.
  intros I H V K Hh W. pose proof (with_peer_rel s p x x' H) as R. split.
  - eapply inv_with_peer; eauto. apply pidt_static; [apply V|apply V].
  - eapply evo_step; eauto.
  - apply (sr_n _ _ _ _ _ R).
Qed.

Lemma has_id_hs x h h' :
  p_handshake x = Some h -> hs_sid h' = hs_sid h ->
  forall id, has_id id x = true -> has_id id (set_handshake (Some h') x) = true.
Proof.
  intros E S id. unfold has_id. rewrite E. cbn. fold (hs_sid h) (hs_sid h').
  now rewrite S.
Qed.
Lemma has_id_ses x u u' :
  p_session x = Some u -> se_sidm u' = se_sidm u ->
  forall id, has_id id x = true -> has_id id (set_session (Some u') x) = true.
Proof. intros E S id. unfold has_id. rewrite E. cbn. now rewrite S. Qed.

Lemma good_put_hs s p x h h' :
  inv s -> pe s p = Some x -> p_handshake x = Some h -> hs_sid h' = hs_sid h -> wf_hs h' ->
  good s (with_peer p (set_handshake (Some h') x) s).
Proof.
  intros I H E S W. eapply good_with_peer; eauto.
  - split; auto. reflexivity.
  - now apply has_id_hs with (h := h).
  - pose proof (i_wf _ I _ _ H) as W0. wfp W0.
Qed.

Lemma good_put_ses s p x u u' :
  inv s -> pe s p = Some x -> p_session x = Some u -> se_sidm u' = se_sidm u -> wf_ses u' ->
  good s (with_peer p (set_session (Some u') x) s).
Proof.
  intros I H E S W. eapply good_with_peer; eauto.
  - split; auto. reflexivity.
  - now apply has_id_ses with (u := u).
  - pose proof (i_wf _ I _ _ H) as W0. wfp W0.
Qed.

End WithPrims.
