(** C104, C105: how a configuration file is understood *)
From Coq Require Import Strings.Ascii Strings.String.
From Verif Require Import Base Files PFiles Config PConfig Rp TomlConfig.
Local Open Scope string_scope.
Local Open Scope list_scope.

(** * Specification *)

(** A table of toml has a name only once *)
Definition settings (t : table) : list string := map fst t.
Definition once_each (t : table) : Prop := NoDup (settings t).
(** A value is the text, or the list of texts *)
Definition is_text (s : string) (v : tval) : Prop := v = TStr s.
Definition is_texts (l : list string) (v : tval) : Prop := v = TArr (map TStr l).
(** The table has the setting with the value, or does not have the setting *)
Definition stated {X} (is : X -> tval -> Prop) (k : string) (t : table) (x : option X) : Prop :=
  match x with Some x => exists v, In (k, v) t /\ is x v | None => ~ In k (settings t) end.
(** The table has the setting with the value, or it does not and the value is the default *)
Definition stated_or {X} (is : X -> tval -> Prop) (default : X) (k : string) (t : table) (x : X) : Prop :=
  stated is k t (Some x) \/ ~ In k (settings t) /\ x = default.

(** The settings for WireGuard *)
Definition wg_stated (t : table) (w : wireguard) : Prop :=
  stated is_text "device" t (Some (wg_device w)) /\ stated is_text "peer" t (Some (wg_peer w)) /\ stated_or is_texts [] "extra_params" t (wg_extra w).
Definition keypair_stated (t : table) (k : keypair) : Prop :=
  stated is_text "public_key" t (Some (k_public k)) /\ stated is_text "secret_key" t (Some (k_secret k)).
(** The settings in the documentation of [RosenpassPeer] *)
Definition peer_settings : list string :=
  ["public_key"; "endpoint"; "pre_shared_key"; "key_out"; "device"; "peer"; "extra_params"; "protocol_version"; "osk_organization"; "osk_label"].

(** * Tables *)

Lemma known_in l k : known l k = true <-> In k l.
Proof.
  unfold known. rewrite existsb_exists. split.
  - intros (x & I & E). apply String.eqb_eq in E. now subst.
  - intros I. exists k. split; [exact I|apply String.eqb_refl].
Qed.
Lemma known_not l k : known l k = false <-> ~ In k l.
Proof. rewrite <- known_in. destruct (known l k); split; congruence. Qed.
Lemma in_names k v t : In (k, v) t -> In k (settings t).
Proof. intros I. change k with (fst (k, v)). now apply in_map. Qed.
Lemma names_in k t : In k (settings t) -> exists v, In (k, v) t.
Proof. intros I. apply in_map_iff in I as ((k' & v) & E & I). cbn [fst] in E. subst. eauto. Qed.

Lemma values_none k t : ~ In k (settings t) -> values k t = [].
Proof.
  unfold values. induction t as [|(k' & v) t IH]; intros N; cbn [filter fst]; [reflexivity|].
  destruct (String.eqb_spec k k') as [->|D]; [exfalso; apply N; now left|]. apply IH. intros I. apply N. now right.
Qed.
Lemma values_in k v t : In v (values k t) <-> In (k, v) t.
Proof.
  unfold values. rewrite in_map_iff. split.
  - intros ((k' & v') & E & I). apply filter_In in I as [I Ek]. cbn [fst snd] in *. apply String.eqb_eq in Ek. now subst.
  - intros I. exists (k, v). split; [reflexivity|]. apply filter_In. split; [exact I|]. apply String.eqb_refl.
Qed.
Lemma values_one k v t : once_each t -> In (k, v) t -> values k t = [v].
Proof.
  unfold once_each. induction t as [|(k' & v') t IH]; intros N I; [contradiction|]. cbn [settings map fst] in N. apply NoDup_cons_iff in N as [N1 N2].
  unfold values. cbn [filter fst]. destruct I as [E|I].
  - assert (k' = k /\ v' = v) as [-> ->] by (split; congruence). rewrite String.eqb_refl. cbn [map snd]. f_equal. now apply values_none.
  - destruct (String.eqb_spec k k') as [->|D]; [exfalso; apply N1; exact (in_names _ _ _ I)|]. now apply IH.
Qed.
Lemma once_same k v w t : once_each t -> In (k, v) t -> In (k, w) t -> v = w.
Proof. intros N I J. pose proof (values_one k v t N I) as E. rewrite (values_one k w t N J) in E. congruence. Qed.
Lemma once_filter f t : once_each t -> once_each (filter f t).
Proof.
  unfold once_each. induction t as [|(k & v) t IH]; intros N; [exact N|]. cbn [settings map fst] in N. apply NoDup_cons_iff in N as [N1 N2].
  cbn [filter]. destruct (f (k, v)); [|now apply IH]. cbn [settings map fst]. constructor; [|now apply IH].
  intros I. apply N1. apply names_in in I as (w & I). apply filter_In in I as [I _]. exact (in_names _ _ _ I).
Qed.

Section Fields.
Context {X : Type} (f : tval -> option X).
Lemma field_some k t x : field f k t = Some (Some x) -> exists v, In (k, v) t /\ f v = Some x.
Proof.
  unfold field. destruct (values k t) as [|v [|]] eqn:E; try discriminate. intros H. exists v. split; [apply values_in; rewrite E; now left|].
  destruct (f v); cbn [option_map] in H; congruence.
Qed.
Lemma field_none k t : field f k t = Some None -> ~ In k (settings t).
Proof.
  unfold field. destruct (values k t) as [|v [|]] eqn:E; try discriminate.
  - intros _ I. apply names_in in I as (v & I). apply values_in in I. rewrite E in I. contradiction.
  - destruct (f v); discriminate.
Qed.
Lemma field_in k v t x : once_each t -> In (k, v) t -> f v = Some x -> field f k t = Some (Some x).
Proof. intros N I E. unfold field. now rewrite (values_one k v t N I), E. Qed.
Lemma field_absent k t : ~ In k (settings t) -> field f k t = Some None.
Proof. intros N. unfold field. now rewrite values_none. Qed.
Lemma taken_in k v t : once_each t -> In (k, v) t -> taken f k t = f v.
Proof. intros N I. unfold taken. now rewrite (values_one k v t N I). Qed.
Lemma taken_absent k t : ~ In k (settings t) -> taken f k t = None.
Proof. intros N. unfold taken. now rewrite values_none. Qed.
Lemma taken_some k t x : taken f k t = Some x -> exists v, In (k, v) t /\ f v = Some x.
Proof. unfold taken. destruct (values k t) as [|v l] eqn:E; [discriminate|]. intros H. exists v. split; [apply values_in; rewrite E; now left|exact H]. Qed.
End Fields.

Lemma de_string_spec v s : de_string v = Some s <-> v = TStr s.
Proof. destruct v; cbn [de_string]; split; congruence. Qed.
Lemma de_strings_all l r : de_all de_string l = Some r <-> l = map TStr r.
Proof.
  revert r. induction l as [|v l IH]; intros r; cbn [de_all].
  - split; [intros E; assert (r = []) by congruence; now subst|]. destruct r; [reflexivity|discriminate].
  - destruct (de_string v) as [s|] eqn:Es.
    + apply de_string_spec in Es as ->. destruct (de_all de_string l) as [q|] eqn:Eq.
      * split.
        -- intros E. assert (r = s :: q) by congruence. subst r. cbn [map]. f_equal. now apply IH.
        -- destruct r as [|y r]; [discriminate|]. cbn [map]. intros E. assert (s = y) by congruence. subst y. f_equal. f_equal.
           assert (l = map TStr r) as El by congruence. apply IH in El. congruence.
      * split; [discriminate|]. destruct r as [|y r]; [discriminate|]. cbn [map]. intros E. assert (l = map TStr r) as El by congruence. apply IH in El. congruence.
    + split; [discriminate|]. destruct r as [|y r]; [discriminate|]. cbn [map]. intros E. assert (v = TStr y) as -> by congruence. discriminate Es.
Qed.
Lemma de_strings_spec v l : de_strings v = Some l <-> v = TArr (map TStr l).
Proof.
  unfold de_strings, de_list. destruct v; try (split; congruence). rewrite de_strings_all. split; congruence.
Qed.

(** * Flattened structures *)

Section Flat.
Context (ok : string -> option (tval -> bool)).
Definition mine (e : string * tval) : bool := match ok (fst e) with Some _ => true | None => false end.
Definition foreign (e : string * tval) : bool := negb (mine e).
Lemma mine_yes k v f : ok k = Some f -> mine (k, v) = true /\ foreign (k, v) = false.
Proof. intros E. unfold foreign, mine. cbn [fst]. rewrite E. now split. Qed.
Lemma mine_no k v : ok k = None -> mine (k, v) = false /\ foreign (k, v) = true.
Proof. intros E. unfold foreign, mine. cbn [fst]. rewrite E. now split. Qed.
Lemma flat_some t : forall seen r rest, flat_take ok seen t = (Some r, rest) ->
  r = filter mine t /\ rest = filter foreign t /\ (forall k v f, In (k, v) t -> ok k = Some f -> f v = true).
Proof.
  induction t as [|(k & v) t IH]; intros seen r rest H; cbn [flat_take] in H.
  - assert (r = [] /\ rest = []) as [-> ->] by (split; congruence). cbn [filter]. split; [reflexivity|]. split; [reflexivity|]. intros ? ? ? [].
  - cbn [filter]. destruct (ok k) as [f|] eqn:Eo.
    + destruct (mine_yes k v f Eo) as [-> ->]. destruct (known seen k); [discriminate|]. destruct (f v) eqn:Ef; [|discriminate].
      destruct (flat_take ok (k :: seen) t) as [r' rest'] eqn:E. destruct r' as [r'|]; [|discriminate H].
      destruct (IH _ _ _ E) as (-> & -> & R). cbn [option_map] in H. split; [congruence|]. split; [congruence|].
      intros k' v' f' [I|I] O; [|exact (R _ _ _ I O)]. assert (k' = k /\ v' = v) as [-> ->] by (split; congruence). assert (f' = f) by congruence. now subst.
    + destruct (mine_no k v Eo) as [-> ->]. destruct (flat_take ok seen t) as [r' rest'] eqn:E. assert (r' = Some r) by congruence. subst r'.
      destruct (IH _ _ _ E) as (-> & -> & R). split; [congruence|]. split; [congruence|].
      intros k' v' f' [I|I] O; [|exact (R _ _ _ I O)]. assert (k' = k) as -> by congruence. congruence.
Qed.
Lemma flat_foreign t : forall seen r rest, flat_take ok seen t = (r, rest) -> filter foreign rest = filter foreign t.
Proof.
  induction t as [|(k & v) t IH]; intros seen r rest H; cbn [flat_take] in H.
  - assert (rest = []) as -> by congruence. reflexivity.
  - cbn [filter]. destruct (ok k) as [f|] eqn:Eo.
    + destruct (mine_yes k v f Eo) as [_ ->]. destruct (known seen k); [assert (rest = t) as -> by congruence; reflexivity|].
      destruct (f v); [|assert (rest = t) as -> by congruence; reflexivity].
      destruct (flat_take ok (k :: seen) t) as [r' rest'] eqn:E. assert (rest' = rest) by congruence. subst. exact (IH _ _ _ E).
    + destruct (mine_no k v Eo) as [_ F]. rewrite F. destruct (flat_take ok seen t) as [r' rest'] eqn:E. assert (rest = (k, v) :: rest') as -> by congruence.
      cbn [filter]. rewrite F. f_equal. exact (IH _ _ _ E).
Qed.
Lemma flat_all t : forall seen, once_each t -> (forall k v f, In (k, v) t -> ok k = Some f -> f v = true) -> (forall k, In k (settings t) -> ~ In k seen) ->
  flat_take ok seen t = (Some (filter mine t), filter foreign t).
Proof.
  induction t as [|(k & v) t IH]; intros seen N R D; cbn [flat_take filter]; [reflexivity|].
  unfold once_each in N. cbn [settings map fst] in N. apply NoDup_cons_iff in N as [N1 N2].
  destruct (ok k) as [f|] eqn:Eo.
  - destruct (mine_yes k v f Eo) as [-> ->]. rewrite (R k v f (or_introl eq_refl) Eo). assert (known seen k = false) as -> by (apply known_not, D; now left).
    rewrite IH; [reflexivity|exact N2|intros k' v' f' I; apply R; now right|].
    intros k' I [E|E]; [subst; contradiction|]. exact (D k' (or_intror I) E).
  - destruct (mine_no k v Eo) as [-> ->]. rewrite IH; [reflexivity|exact N2|intros k' v' f' I; apply R; now right|]. intros k' I. apply D. now right.
Qed.
End Flat.

Lemma reads_spec {X} (f : tval -> option X) v : reads f v = true <-> exists x, f v = Some x.
Proof. unfold reads. destruct (f v); split; eauto; try discriminate. intros [x E]. discriminate. Qed.

(** The three flattened structures *)
Lemma wg_mine e : mine wg_fields e = true <-> In (fst e) ["device"; "peer"; "extra_params"].
Proof.
  unfold mine, wg_fields. destruct (known ["device"; "peer"] (fst e)) eqn:K.
  - apply known_in in K. split; [intros _|reflexivity]. cbn [In] in *. tauto.
  - apply known_not in K. destruct (String.eqb_spec (fst e) "extra_params") as [->|D]; cbn [In] in *; split; auto; try discriminate. intros [?|[?|[?|[]]]]; exfalso; auto.
Qed.
Lemma osk_mine e : mine osk_fields e = true <-> In (fst e) ["osk_organization"; "osk_label"].
Proof.
  unfold mine, osk_fields. destruct (String.eqb_spec (fst e) "osk_organization") as [->|D]; [cbn [In]; tauto|].
  destruct (String.eqb_spec (fst e) "osk_label") as [->|D']; cbn [In]; split; auto; try discriminate. intros [?|[?|[]]]; exfalso; auto.
Qed.
Lemma keypair_mine e : mine keypair_fields e = true <-> In (fst e) ["public_key"; "secret_key"].
Proof. unfold mine, keypair_fields. destruct (known ["public_key"; "secret_key"] (fst e)) eqn:K; [apply known_in in K|apply known_not in K]; split; auto; try discriminate; contradiction. Qed.

Lemma in_mine ok k v t : mine ok (k, v) = true -> (In (k, v) (filter (mine ok) t) <-> In (k, v) t).
Proof. intros M. rewrite filter_In. tauto. Qed.
Lemma name_mine ok k t : (forall v, mine ok (k, v) = true) -> (In k (settings (filter (mine ok) t)) <-> In k (settings t)).
Proof.
  intros M. split; intros I; apply names_in in I as (v & I).
  - apply in_mine in I; [exact (in_names _ _ _ I)|apply M].
  - apply (in_names k v). apply in_mine; [apply M|exact I].
Qed.

Lemma de_wg_spec t wg rest : once_each t -> de_wg t = (wg, rest) ->
  filter (foreign wg_fields) rest = filter (foreign wg_fields) t /\
  (forall w, wg = Some w -> wg_stated t w /\ rest = filter (foreign wg_fields) t) /\
  (forall w, wg_stated t w -> wg = Some w).
Proof.
  intros N H. unfold de_wg in H. destruct (flat_take wg_fields [] t) as [r rest'] eqn:E. assert (rest' = rest) by congruence. subst rest'.
  split; [exact (flat_foreign wg_fields t [] r rest E)|]. split.
  - intros w W. destruct r as [r|]; [|congruence]. destruct (flat_some wg_fields t [] r rest E) as (Er & Erest & R). split; [|exact Erest].
    assert (H' := f_equal fst H). cbn [fst] in H'. rewrite W in H'. clear H.
    destruct (taken de_string "device" r) as [d|] eqn:Ed; [|discriminate]. destruct (taken de_string "peer" r) as [p|] eqn:Ep; [|discriminate].
    match type of H' with Some ?x = _ => assert (Ew : w = x) by congruence end. rewrite Ew. clear Ew H' W w. unfold wg_stated. cbn [wg_device wg_peer wg_extra].
    apply taken_some in Ed as (v1 & I1 & D1). apply taken_some in Ep as (v2 & I2 & D2). rewrite Er in I1, I2. apply filter_In in I1 as [I1 _]. apply filter_In in I2 as [I2 _].
    apply de_string_spec in D1, D2. split; [exists v1; split; [exact I1|exact D1]|]. split; [exists v2; split; [exact I2|exact D2]|].
    destruct (taken de_strings "extra_params" r) as [l|] eqn:El.
    + left. apply taken_some in El as (v3 & I3 & D3). rewrite Er in I3. apply filter_In in I3 as [I3 _]. exists v3. split; [exact I3|]. now apply de_strings_spec.
    + right. split; [|reflexivity]. intros I. apply names_in in I as (v & I).
      assert (Ir : In ("extra_params", v) r) by (rewrite Er; apply in_mine; [reflexivity|exact I]).
      rewrite (taken_in de_strings _ v r) in El; [|rewrite Er; now apply once_filter|exact Ir].
      pose proof (R "extra_params" v _ I eq_refl) as Rd. unfold reads in Rd. rewrite El in Rd. discriminate.
  - intros w ((v1 & I1 & D1) & (v2 & I2 & D2) & X).
    assert (All : forall k v f, In (k, v) t -> wg_fields k = Some f -> f v = true).
    { intros k v f I O. assert (M : In k ["device"; "peer"; "extra_params"]) by (apply (wg_mine (k, v)); unfold mine; cbn [fst]; now rewrite O).
      destruct M as [<-|[<-|[<-|[]]]].
      - assert (f = reads de_string) as -> by (change (Some (reads de_string) = Some f) in O; congruence). apply reads_spec. exists (wg_device w). rewrite (once_same _ _ _ _ N I I1). now apply de_string_spec.
      - assert (f = reads de_string) as -> by (change (Some (reads de_string) = Some f) in O; congruence). apply reads_spec. exists (wg_peer w). rewrite (once_same _ _ _ _ N I I2). now apply de_string_spec.
      - assert (f = reads de_strings) as -> by (change (Some (reads de_strings) = Some f) in O; congruence). apply reads_spec.
        destruct X as [(v3 & I3 & D3)|[X _]]; [|exfalso; exact (X (in_names _ _ _ I))]. exists (wg_extra w). rewrite (once_same _ _ _ _ N I I3). now apply de_strings_spec. }
    rewrite (flat_all wg_fields t [] N All ltac:(intros ? ? [])) in E.
    assert (Er : r = Some (filter (mine wg_fields) t)) by congruence. subst r.
    assert (H' := f_equal fst H). cbn [fst] in H'. rewrite <- H'. clear H H' E.
    rewrite (taken_in de_string "device" v1) by (try apply in_mine; try apply once_filter; auto). apply de_string_spec in D1. rewrite D1.
    rewrite (taken_in de_string "peer" v2) by (try apply in_mine; try apply once_filter; auto). apply de_string_spec in D2. rewrite D2.
    destruct X as [(v3 & I3 & D3)|[X Ex]].
    + rewrite (taken_in de_strings "extra_params" v3) by (try apply in_mine; try apply once_filter; auto). apply de_strings_spec in D3. rewrite D3. now destruct w.
    + rewrite taken_absent by (rewrite name_mine; [exact X|reflexivity]). destruct w as [d p x]. cbn [wg_extra] in Ex. subst x. reflexivity.
Qed.

Lemma de_keypair_spec t kp rest : once_each t -> de_keypair t = (kp, rest) ->
  filter (foreign keypair_fields) rest = filter (foreign keypair_fields) t /\
  (forall k, kp = Some k -> keypair_stated t k /\ rest = filter (foreign keypair_fields) t) /\
  (forall k, keypair_stated t k -> kp = Some k).
Proof.
  intros N H. unfold de_keypair in H. destruct (flat_take keypair_fields [] t) as [r rest'] eqn:E. assert (rest' = rest) by congruence. subst rest'.
  split; [exact (flat_foreign keypair_fields t [] r rest E)|]. split.
  - intros w W. destruct r as [r|]; [|congruence]. destruct (flat_some keypair_fields t [] r rest E) as (Er & Erest & R). split; [|exact Erest].
    assert (H' := f_equal fst H). cbn [fst] in H'. rewrite W in H'. clear H.
    destruct (taken de_string "public_key" r) as [d|] eqn:Ed; [|discriminate]. destruct (taken de_string "secret_key" r) as [p|] eqn:Ep; [|discriminate].
    match type of H' with Some ?x = _ => assert (Ew : w = x) by congruence end. rewrite Ew. clear Ew H' W w. unfold keypair_stated. cbn [k_public k_secret].
    apply taken_some in Ed as (v1 & I1 & D1). apply taken_some in Ep as (v2 & I2 & D2). rewrite Er in I1, I2. apply filter_In in I1 as [I1 _]. apply filter_In in I2 as [I2 _].
    apply de_string_spec in D1, D2. split; [exists v1; split; [exact I1|exact D1]|]. exists v2; split; [exact I2|exact D2].
  - intros w ((v1 & I1 & D1) & (v2 & I2 & D2)).
    assert (All : forall k v f, In (k, v) t -> keypair_fields k = Some f -> f v = true).
    { intros k v f I O. assert (M : In k ["public_key"; "secret_key"]) by (apply (keypair_mine (k, v)); unfold mine; cbn [fst]; now rewrite O).
      destruct M as [<-|[<-|[]]].
      - assert (f = reads de_string) as -> by (change (Some (reads de_string) = Some f) in O; congruence). apply reads_spec. exists (k_public w). rewrite (once_same _ _ _ _ N I I1). now apply de_string_spec.
      - assert (f = reads de_string) as -> by (change (Some (reads de_string) = Some f) in O; congruence). apply reads_spec. exists (k_secret w). rewrite (once_same _ _ _ _ N I I2). now apply de_string_spec. }
    rewrite (flat_all keypair_fields t [] N All ltac:(intros ? ? [])) in E.
    assert (Er : r = Some (filter (mine keypair_fields) t)) by congruence. subst r.
    assert (H' := f_equal fst H). cbn [fst] in H'. rewrite <- H'. clear H H' E.
    rewrite (taken_in de_string "public_key" v1) by (try apply in_mine; try apply once_filter; auto). apply de_string_spec in D1. rewrite D1.
    rewrite (taken_in de_string "secret_key" v2) by (try apply in_mine; try apply once_filter; auto). apply de_string_spec in D2. rewrite D2.
    now destruct w.
Qed.

(** Nothing of the separator may be left over *)
Lemma de_osk_spec t org label : once_each t ->
  (de_osk t = (Some (org, label), []) <->
   stated is_text "osk_organization" t org /\ stated is_texts "osk_label" t label /\ (forall k, In k (settings t) -> In k ["osk_organization"; "osk_label"])).
Proof.
  intros N. unfold de_osk. destruct (flat_take osk_fields [] t) as [r rest] eqn:E. split.
  - intros H. destruct r as [r|]; [|discriminate H]. cbn [option_map] in H. assert (rest = []) by congruence. subst rest.
    destruct (flat_some osk_fields t [] r [] E) as (Er & Erest & R).
    assert (Eo : taken de_string "osk_organization" r = org) by congruence. assert (El : taken de_strings "osk_label" r = label) by congruence. clear H.
    split; [|split].
    + subst r. destruct org as [o|].
      * apply taken_some in Eo as (v & I & D). apply filter_In in I as [I _]. exists v. split; [exact I|]. now apply de_string_spec.
      * intros I. apply names_in in I as (v & I). rewrite (taken_in de_string _ v) in Eo; [|now apply once_filter|now apply in_mine].
        pose proof (R _ _ _ I eq_refl) as Q. unfold reads in Q. rewrite Eo in Q. discriminate.
    + subst r. destruct label as [o|].
      * apply taken_some in El as (v & I & D). apply filter_In in I as [I _]. exists v. split; [exact I|]. now apply de_strings_spec.
      * intros I. apply names_in in I as (v & I). rewrite (taken_in de_strings _ v) in El; [|now apply once_filter|now apply in_mine].
        pose proof (R _ _ _ I eq_refl) as Q. unfold reads in Q. rewrite El in Q. discriminate.
    + intros k I. apply names_in in I as (v & I). apply (osk_mine (k, v)). destruct (mine osk_fields (k, v)) eqn:M; [reflexivity|].
      assert (J : In (k, v) (filter (foreign osk_fields) t)) by (apply filter_In; split; [exact I|unfold foreign; now rewrite M]). rewrite <- Erest in J. contradiction.
  - intros (O & L & K).
    assert (All : forall k v f, In (k, v) t -> osk_fields k = Some f -> f v = true).
    { intros k v f I Q. destruct (K k (in_names _ _ _ I)) as [<-|[<-|[]]].
      - assert (f = reads de_string) as -> by (change (Some (reads de_string) = Some f) in Q; congruence). apply reads_spec.
        destruct org as [o|]; [|exfalso; exact (O (in_names _ _ _ I))]. destruct O as (v1 & I1 & D1). exists o. rewrite (once_same _ _ _ _ N I I1). now apply de_string_spec.
      - assert (f = reads de_strings) as -> by (change (Some (reads de_strings) = Some f) in Q; congruence). apply reads_spec.
        destruct label as [o|]; [|exfalso; exact (L (in_names _ _ _ I))]. destruct L as (v1 & I1 & D1). exists o. rewrite (once_same _ _ _ _ N I I1). now apply de_strings_spec. }
    rewrite (flat_all osk_fields t [] N All ltac:(intros ? ? [])) in E.
    assert (Er : r = Some (filter (mine osk_fields) t)) by congruence. assert (Erest : rest = filter (foreign osk_fields) t) by congruence. subst r rest. clear E.
    cbn [option_map]. f_equal; [f_equal; f_equal|].
    + destruct org as [o|].
      * destruct O as (v1 & I1 & D1). rewrite (taken_in de_string _ v1) by (try apply in_mine; try apply once_filter; auto). now apply de_string_spec.
      * apply taken_absent. rewrite name_mine; [exact O|reflexivity].
    + destruct label as [o|].
      * destruct L as (v1 & I1 & D1). rewrite (taken_in de_strings _ v1) by (try apply in_mine; try apply once_filter; auto). now apply de_strings_spec.
      * apply taken_absent. rewrite name_mine; [exact L|reflexivity].
    + destruct (filter (foreign osk_fields) t) as [|(k & v) q] eqn:F; [reflexivity|]. exfalso.
      assert (I : In (k, v) (filter (foreign osk_fields) t)) by (rewrite F; now left). apply filter_In in I as [I M].
      unfold foreign in M. assert (M' : mine osk_fields (k, v) = true) by (apply osk_mine; exact (K k (in_names _ _ _ I))). rewrite M' in M. discriminate.
Qed.

(** A field as it is read and as it is stated *)
Lemma field_stated {X} (f : tval -> option X) (is : X -> tval -> Prop) k t x : (forall v x, f v = Some x <-> is x v) -> once_each t ->
  (field f k t = Some x <-> stated is k t x).
Proof.
  intros S N. destruct x as [x|]; cbn [stated]; split.
  - intros H. apply field_some in H as (v & I & E). exists v. split; [exact I|]. now apply S.
  - intros (v & I & E). apply (field_in f k v); [exact N|exact I|]. now apply S.
  - apply field_none.
  - apply field_absent.
Qed.
Lemma others_in ns t k v : ~ In k ns -> (In (k, v) (others ns t) <-> In (k, v) t).
Proof. intros N. unfold others. rewrite filter_In. cbn [fst]. apply known_not in N. rewrite N. cbn [negb]. tauto. Qed.
Lemma others_name ns t k : In k (settings (others ns t)) <-> ~ In k ns /\ In k (settings t).
Proof.
  split.
  - intros I. apply names_in in I as (v & I). unfold others in I. apply filter_In in I as [I K]. cbn [fst] in K.
    split; [|exact (in_names _ _ _ I)]. apply known_not. now destruct (known ns k).
  - intros [N I]. apply names_in in I as (v & I). apply (in_names k v). now apply others_in.
Qed.
Lemma others_stated {X} (is : X -> tval -> Prop) ns k t x : ~ In k ns -> (stated is k (others ns t) x <-> stated is k t x).
Proof.
  intros N. destruct x as [x|]; cbn [stated].
  - split; intros (v & I & E); exists v; (split; [|exact E]); apply (others_in ns t k v N); exact I.
  - rewrite others_name. tauto.
Qed.
Lemma filter_stated {X} (is : X -> tval -> Prop) g k t x : (forall v, g (k, v) = true) -> (stated is k (filter g t) x <-> stated is k t x).
Proof.
  intros G. destruct x as [x|]; cbn [stated].
  - split; intros (v & I & E); exists v; (split; [|exact E]); [apply filter_In in I as [I _]|apply filter_In; split]; auto.
  - split; intros N I; apply N; apply names_in in I as (v & I); apply (in_names k v); [apply filter_In; auto|]. now apply filter_In in I as [I _].
Qed.
Lemma filter_idem {X} (g : X -> bool) l : (forall x, In x l -> g x = true) -> filter g l = l.
Proof. induction l as [|x l IH]; intros G; [reflexivity|]. cbn [filter]. rewrite (G x) by now left. f_equal. apply IH. intros y I. apply G. now right. Qed.

(** * A peer *)

Section Peer.
Context (variant : tval -> option string).
(** A version is written as the name of the variant *)
Definition is_version (v03 : bool) (v : tval) : Prop := de_variant variant v = Some (if v03 then "V03" else "V02").
Definition is_verbosity (x : verbosity) (v : tval) : Prop := de_variant variant v = Some (match x with Quiet => "Quiet" | Verbose => "Verbose" end).
(** The settings that are not the ones for WireGuard *)
Definition peer_table_says (t : table) (p : peer) : Prop :=
  stated is_text "public_key" t (Some (p_public p)) /\
  stated is_text "endpoint" t (p_endpoint p) /\ stated is_text "pre_shared_key" t (p_psk p) /\ stated is_text "key_out" t (p_key_out p) /\
  stated_or is_version false "protocol_version" t (p_v03 p) /\
  stated is_text "osk_organization" t (p_org p) /\ stated is_texts "osk_label" t (p_label p).

Lemma de_version_spec v b : de_version variant v = Some b <-> is_version b v.
Proof.
  unfold de_version, is_version. destruct (de_variant variant v) as [s|]; [|split; discriminate].
  destruct (String.eqb_spec s "V02") as [->|D]; [destruct b; split; congruence|].
  destruct (String.eqb_spec s "V03") as [->|D']; destruct b; split; congruence.
Qed.
Lemma de_verbosity_spec v b : de_verbosity variant v = Some b <-> is_verbosity b v.
Proof.
  unfold de_verbosity, is_verbosity. destruct (de_variant variant v) as [s|]; [|split; discriminate].
  destruct (String.eqb_spec s "Quiet") as [->|D]; [destruct b; split; congruence|].
  destruct (String.eqb_spec s "Verbose") as [->|D']; destruct b; split; congruence.
Qed.
(** What can be said of every accepted table *)
Lemma peer_sound t p : once_each t -> de_peer_table variant t = Some p ->
  peer_table_says t p /\ (forall k, In k (settings t) -> In k peer_settings) /\ (forall w, p_wg p = Some w <-> wg_stated t w).
Proof.
  intros N H. unfold de_peer_table in H.
  destruct (field de_string "public_key" t) as [[pk|]|] eqn:E1; try discriminate H.
  destruct (field de_string "endpoint" t) as [ep|] eqn:E2; try discriminate H.
  destruct (field de_string "pre_shared_key" t) as [psk|] eqn:E3; try discriminate H.
  destruct (field de_string "key_out" t) as [out|] eqn:E4; try discriminate H.
  destruct (field (de_version variant) "protocol_version" t) as [ver|] eqn:E5; try discriminate H.
  assert (NO : once_each (others peer_names t)) by now apply once_filter.
  destruct (de_wg (others peer_names t)) as [wg rest] eqn:EW. destruct (de_osk rest) as [osk rest2] eqn:EO.
  destruct osk as [(org & label)|]; [|discriminate H]. destruct rest2 as [|e rest2]; [|discriminate H].
  destruct (de_wg_spec _ _ _ NO EW) as (W1 & W2 & W3).
  assert (NR : once_each rest).
  { clear -NO EW. unfold de_wg in EW. destruct (flat_take wg_fields [] (others peer_names t)) as [r rest'] eqn:E. assert (rest' = rest) by congruence. subst rest'. clear EW.
    revert NO E. generalize (@nil string) as seen. generalize (others peer_names t) as o. intros o. revert r rest.
    induction o as [|(k & v) o IH]; intros r rest seen N E; cbn [flat_take] in E; [assert (rest = []) as -> by congruence; constructor|].
    pose proof N as N'. unfold once_each in N'. cbn [settings map fst] in N'. apply NoDup_cons_iff in N' as [N1 N2].
    destruct (wg_fields k) as [f|].
    - destruct (known seen k); [assert (rest = o) as -> by congruence; exact N2|]. destruct (f v); [|assert (rest = o) as -> by congruence; exact N2].
      destruct (flat_take wg_fields (k :: seen) o) as [r' rest'] eqn:E'. assert (rest' = rest) by congruence. subst. exact (IH _ _ _ N2 E').
    - destruct (flat_take wg_fields seen o) as [r' rest'] eqn:E'. assert (rest = (k, v) :: rest') as -> by congruence.
      unfold once_each. cbn [settings map fst]. constructor; [|exact (IH _ _ _ N2 E')].
      intros I. apply N1. apply names_in in I as (w & I). apply (in_names k w). clear -I E'. revert seen r' rest' E' I. induction o as [|(a & b) o IH]; intros seen r rest E I; cbn [flat_take] in E.
      + assert (rest = []) as -> by congruence. contradiction.
      + destruct (wg_fields a) as [f|].
        * destruct (known seen a); [assert (rest = o) as -> by congruence; now right|]. destruct (f b); [|assert (rest = o) as -> by congruence; now right].
          destruct (flat_take wg_fields (a :: seen) o) as [r' rest'] eqn:E'. assert (rest' = rest) by congruence. subst. right. exact (IH _ _ _ E' I).
        * destruct (flat_take wg_fields seen o) as [r' rest'] eqn:E'. assert (rest = (a, b) :: rest') as -> by congruence. destruct I as [I|I]; [now left|]. right. exact (IH _ _ _ E' I). }
  apply (de_osk_spec rest org label NR) in EO as (O1 & O2 & O3).
  assert (EF : rest = filter (foreign wg_fields) (others peer_names t)).
  { rewrite <- W1. symmetry. apply filter_idem. intros (k & v) I. unfold foreign. destruct (mine wg_fields (k, v)) eqn:M; [|reflexivity]. exfalso.
    apply wg_mine in M. cbn [fst] in M. specialize (O3 k (in_names _ _ _ I)). cbn [In] in M, O3. decompose [or] M; decompose [or] O3; subst; try discriminate; contradiction. }
  match type of H with Some ?x = _ => assert (EP : p = x) by congruence end. rewrite EP. clear H EP p.
  unfold peer_table_says. cbn [p_public p_endpoint p_psk p_key_out p_wg p_v03 p_org p_label].
  split; [|split].
  - split; [now apply (field_stated de_string is_text); [apply de_string_spec| |]|].
    split; [now apply (field_stated de_string is_text); [apply de_string_spec| |]|].
    split; [now apply (field_stated de_string is_text); [apply de_string_spec| |]|].
    split; [now apply (field_stated de_string is_text); [apply de_string_spec| |]|].
    split.
    { destruct ver as [b|]; [left|right; split; [now apply (field_none _ _ _ E5)|reflexivity]]. now apply (field_stated (de_version variant) is_version); [apply de_version_spec| |]. }
    rewrite EF in O1, O2.
    apply (filter_stated is_text) in O1; [|reflexivity]. apply (others_stated is_text) in O1; [|intros I; cbn [In peer_names] in I; decompose [or] I; discriminate || contradiction].
    apply (filter_stated is_texts) in O2; [|reflexivity]. apply (others_stated is_texts) in O2; [|intros I; cbn [In peer_names] in I; decompose [or] I; discriminate || contradiction].
    split; assumption.
  - intros k I. destruct (known peer_names k) eqn:K.
    + apply known_in in K. cbn [In peer_names peer_settings] in *. tauto.
    + apply known_not in K. apply names_in in I as (v & I). assert (I' : In (k, v) (others peer_names t)) by now apply others_in.
      destruct (mine wg_fields (k, v)) eqn:M.
      * apply wg_mine in M. cbn [fst In peer_settings] in *. tauto.
      * assert (J : In (k, v) rest) by (rewrite EF; apply filter_In; split; [exact I'|unfold foreign; now rewrite M]).
        specialize (O3 k (in_names _ _ _ J)). cbn [In peer_settings] in *. tauto.
  - assert (WS : forall w, wg_stated (others peer_names t) w <-> wg_stated t w).
    { intros w. unfold wg_stated, stated_or. rewrite !others_stated by (intros I; cbn [In peer_names] in I; decompose [or] I; discriminate || contradiction).
      rewrite others_name. assert (~ In "extra_params" peer_names) by (intros I; cbn [In peer_names] in I; decompose [or] I; discriminate || contradiction). tauto. }
    intros w. split; [intros Ew; apply WS; now apply W2|intros Ew; apply W3; now apply WS].
Qed.

(** The settings for WireGuard are all there, or none of them is *)
Definition wg_says (t : table) (wg : option wireguard) : Prop :=
  match wg with
  | Some w => wg_stated t w
  | None => forall k, In k ["device"; "peer"; "extra_params"] -> ~ In k (settings t)
  end.
Ltac not_listed := let I := fresh in intros I; cbn [In peer_names] in I; decompose [or] I; discriminate || contradiction.
Lemma wg_others t w : wg_stated (others peer_names t) w <-> wg_stated t w.
Proof.
  unfold wg_stated, stated_or. rewrite !others_stated by not_listed. rewrite others_name. assert (~ In "extra_params" peer_names) by not_listed. tauto.
Qed.
Lemma peer_complete t p : once_each t -> peer_table_says t p -> wg_says t (p_wg p) -> (forall k, In k (settings t) -> In k peer_settings) ->
  de_peer_table variant t = Some p.
Proof.
  intros N (S1 & S2 & S3 & S4 & S5 & S6 & S7) W K. unfold de_peer_table.
  apply (field_stated de_string is_text) in S1; [|apply de_string_spec|exact N]. rewrite S1.
  apply (field_stated de_string is_text) in S2; [|apply de_string_spec|exact N]. rewrite S2.
  apply (field_stated de_string is_text) in S3; [|apply de_string_spec|exact N]. rewrite S3.
  apply (field_stated de_string is_text) in S4; [|apply de_string_spec|exact N]. rewrite S4.
  assert (V : exists v, field (de_version variant) "protocol_version" t = Some v /\ match v with Some b => b | None => false end = p_v03 p).
  { destruct S5 as [S5|[S5 E]].
    - exists (Some (p_v03 p)). split; [|reflexivity]. apply (field_stated (de_version variant) is_version); [apply de_version_spec|exact N|exact S5].
    - exists None. split; [|now rewrite E]. now apply field_absent. }
  destruct V as (v & -> & V).
  assert (NO : once_each (others peer_names t)) by now apply once_filter.
  assert (WR : de_wg (others peer_names t) = (p_wg p, filter (foreign wg_fields) (others peer_names t))).
  { destruct (de_wg (others peer_names t)) as [wg rest] eqn:EW. destruct (de_wg_spec _ _ _ NO EW) as (W1 & W2 & W3). destruct (p_wg p) as [w|]; cbn [wg_says] in W.
    - assert (wg = Some w) as -> by (apply W3; now apply wg_others). f_equal. now apply (W2 w).
    - assert (wg = None) as ->.
      { destruct wg as [w|]; [|reflexivity]. exfalso. destruct (W2 w eq_refl) as [((x & I & _) & _) _]. apply (W "device"); [now left|].
        apply (in_names "device" x). unfold others in I. now apply filter_In in I as [I _]. }
      f_equal. unfold de_wg in EW. rewrite flat_all in EW; [congruence|exact NO| |intros ? ? []].
      intros k x f I O. exfalso. apply (W k); [apply (wg_mine (k, x)); unfold mine; cbn [fst]; now rewrite O|].
      apply (in_names k x). unfold others in I. now apply filter_In in I as [I _]. }
  rewrite WR.
  assert (OS : de_osk (filter (foreign wg_fields) (others peer_names t)) = (Some (p_org p, p_label p), [])).
  { apply de_osk_spec; [now apply once_filter|]. split; [|split].
    - apply filter_stated; [reflexivity|]. apply others_stated; [not_listed|exact S6].
    - apply filter_stated; [reflexivity|]. apply others_stated; [not_listed|exact S7].
    - intros k I. apply names_in in I as (x & I). apply filter_In in I as [I F]. apply in_names in I as I'. apply others_name in I' as [NP I'].
      specialize (K k I'). unfold foreign in F. assert (NW : ~ In k ["device"; "peer"; "extra_params"]).
      { intros J. assert (M : mine wg_fields (k, x) = true) by (apply wg_mine; exact J). rewrite M in F. discriminate. }
      cbn [In peer_settings peer_names] in *. tauto. }
  rewrite OS, V. now destruct p.
Qed.
End Peer.

(** * C104: peers *)

(** A table is understood as it is written: every setting that is there is the one of the peer, and no other setting is accepted *)
Theorem C104_peer_exact_partial variant t p : once_each t -> de_peer_table variant t = Some p ->
  peer_table_says variant t p /\ (forall k, In k (settings t) -> In k peer_settings) /\ (forall w, p_wg p = Some w <-> wg_stated t w).
Proof. apply peer_sound. Qed.
Print Assumptions C104_peer_exact_partial.

(** A table with the settings of the documentation is accepted *)
Theorem C104_peer_accepted variant t p : once_each t -> peer_table_says variant t p -> wg_says t (p_wg p) -> (forall k, In k (settings t) -> In k peer_settings) ->
  de_peer_table variant t = Some p.
Proof. apply peer_complete. Qed.
Print Assumptions C104_peer_accepted.

(** Without a complete set of settings for WireGuard those that are there are ignored *)
Theorem C104_peer_ignored variant t p : once_each t -> de_peer_table variant t = Some p -> p_wg p = None ->
  de_peer_table variant (filter (fun e => negb (known ["device"; "peer"; "extra_params"] (fst e))) t) = Some p.
Proof.
  intros N H W. destruct (peer_sound variant t p N H) as ((S1 & S2 & S3 & S4 & S5 & S6 & S7) & K & _).
  set (g := fun e : string * tval => negb (known ["device"; "peer"; "extra_params"] (fst e))).
  assert (I1 : forall k, In k (settings (filter g t)) -> ~ In k ["device"; "peer"; "extra_params"] /\ In k (settings t)).
  { intros k I. apply names_in in I as (v & I). apply filter_In in I as [I G]. split; [|exact (in_names _ _ _ I)]. apply known_not. unfold g in G. cbn [fst] in G. now destruct (known _ k). }
  apply peer_complete; [now apply once_filter| | |].
  - unfold peer_table_says, stated_or. rewrite !filter_stated by reflexivity. repeat (split; [assumption|]). split; [|split; assumption].
    destruct S5 as [S5|[S5 E]]; [now left|right]. split; [|exact E]. intros I. now apply I1 in I.
  - rewrite W. intros k I J. now apply I1 in J as [J _].
  - intros k I. apply K. now apply I1.
Qed.
Print Assumptions C104_peer_ignored.

(** * Writing and reading a peer *)

Lemma ser_opt_names {X} (f : X -> tval) k x : settings (ser_opt f k x) = match x with Some _ => [k] | None => [] end.
Proof. now destruct x. Qed.
Lemma ser_peer_once p : once_each (ser_peer p).
Proof.
  unfold once_each, ser_peer, settings. rewrite !map_app. destruct p as [pk ep psk out wg v o l].
  destruct ep, psk, out, wg, o, l; cbn [map app ser_opt fst p_public p_endpoint p_psk p_key_out p_wg p_v03 p_org p_label];
    repeat (constructor; [intros I; cbn [In] in I; decompose [or] I; discriminate || contradiction|]); constructor.
Qed.
Lemma ser_peer_settings p k : In k (settings (ser_peer p)) -> In k peer_settings.
Proof.
  unfold ser_peer, settings. rewrite !map_app. destruct p as [pk ep psk out wg v o l].
  destruct ep, psk, out, wg, o, l; cbn [map app ser_opt fst p_public p_endpoint p_psk p_key_out p_wg p_v03 p_org p_label In peer_settings]; tauto.
Qed.

Lemma peer_said variant p : peer_table_says variant (ser_peer p) p /\ wg_says (ser_peer p) (p_wg p).
Proof.
  unfold peer_table_says, wg_says, wg_stated, stated_or, ser_peer.
  assert (V : de_variant variant (TStr (if p_v03 p then "V03" else "V02")) = Some (if p_v03 p then "V03" else "V02")) by reflexivity.
  destruct p as [pk ep psk out wg v o l]. cbn [p_public p_endpoint p_psk p_key_out p_wg p_v03 p_org p_label] in *.
  assert (R : forall {X} (is : X -> tval -> Prop) k (x : X) val (t : table), In (k, val) t -> is x val -> stated is k t (Some x)) by (intros X is k x val t I E; exists val; split; assumption).
  split.
  - split; [apply (R _ is_text _ _ (TStr pk)); [now left|reflexivity]|].
    split; [destruct ep as [x|]; [apply (R _ is_text _ _ (TStr x)); [|reflexivity]|]|].
    { rewrite !in_app_iff. right. left. now left. }
    { cbn [stated]. unfold settings. rewrite !map_app. destruct psk, out, wg, o, l; cbn [map app ser_opt fst In]; intros I; decompose [or] I; discriminate || contradiction. }
    split; [destruct psk as [x|]; [apply (R _ is_text _ _ (TStr x)); [|reflexivity]|]|].
    { rewrite !in_app_iff. do 2 right. left. now left. }
    { cbn [stated]. unfold settings. rewrite !map_app. destruct ep, out, wg, o, l; cbn [map app ser_opt fst In]; intros I; decompose [or] I; discriminate || contradiction. }
    split; [destruct out as [x|]; [apply (R _ is_text _ _ (TStr x)); [|reflexivity]|]|].
    { rewrite !in_app_iff. do 3 right. left. now left. }
    { cbn [stated]. unfold settings. rewrite !map_app. destruct ep, psk, wg, o, l; cbn [map app ser_opt fst In]; intros I; decompose [or] I; discriminate || contradiction. }
    split; [left; apply (R _ (is_version variant) _ _ (TStr (if v then "V03" else "V02"))); [|exact V]|].
    { rewrite !in_app_iff. do 5 right. left. now left. }
    split; [destruct o as [x|]; [apply (R _ is_text _ _ (TStr x)); [|reflexivity]|]|].
    { rewrite !in_app_iff. do 6 right. left. now left. }
    { cbn [stated]. unfold settings. rewrite !map_app. destruct ep, psk, out, wg, l; cbn [map app ser_opt fst In]; intros I; decompose [or] I; discriminate || contradiction. }
    destruct l as [x|]; [apply (R _ is_texts _ _ (ser_strings x)); [|reflexivity]|].
    { rewrite !in_app_iff. do 7 right. now left. }
    { cbn [stated]. unfold settings. rewrite !map_app. destruct ep, psk, out, wg, o; cbn [map app ser_opt fst In]; intros I; decompose [or] I; discriminate || contradiction. }
  - destruct wg as [w|].
    + split; [apply (R _ is_text _ _ (TStr (wg_device w))); [|reflexivity]|split; [apply (R _ is_text _ _ (TStr (wg_peer w))); [|reflexivity]|left; apply (R _ is_texts _ _ (ser_strings (wg_extra w))); [|reflexivity]]];
        rewrite !in_app_iff; do 4 right; left; cbn [In]; tauto.
    + intros k K. unfold settings. rewrite !map_app. destruct ep, psk, out, o, l; cbn [map app ser_opt fst In] in *; intros I; decompose [or] I; decompose [or] K; subst; discriminate || contradiction.
Qed.

(** A peer that is written and read is the same peer *)
Theorem C104_peer_kept variant p : de_peer_table variant (ser_peer p) = Some p.
Proof. destruct (peer_said variant p) as [S W]. apply peer_complete; [apply ser_peer_once|exact S|exact W|apply ser_peer_settings]. Qed.
Print Assumptions C104_peer_kept.

(** A device without a peer, of any type, is accepted and ignored; so are a peer and parameters alone *)
Theorem C104_wireguard_refuted variant p k v : p_wg p = None -> In k ["device"; "peer"; "extra_params"] ->
  de_peer_table variant ((k, v) :: ser_peer p) = Some p.
Proof.
  intros W K. pose proof (C104_peer_kept variant p) as P. unfold de_peer_table in *.
  assert (F : forall {X} (f : tval -> option X) n, In n peer_names -> field f n ((k, v) :: ser_peer p) = field f n (ser_peer p)).
  { intros X f n I. unfold field, values. cbn [filter fst]. destruct (String.eqb_spec n k) as [->|D]; [|reflexivity]. exfalso.
    cbn [In peer_names] in *. decompose [or] K; decompose [or] I; subst; discriminate || contradiction. }
  rewrite !F by (cbn [In peer_names]; tauto).
  assert (O : others peer_names ((k, v) :: ser_peer p) = (k, v) :: others peer_names (ser_peer p)).
  { unfold others. cbn [filter fst]. assert (known peer_names k = false) as ->; [|reflexivity]. apply known_not. intros I.
    cbn [In peer_names] in *. decompose [or] K; decompose [or] I; subst; discriminate || contradiction. }
  rewrite O.
  destruct (field de_string "public_key" (ser_peer p)) as [[pk|]|]; try discriminate P.
  destruct (field de_string "endpoint" (ser_peer p)) as [ep|]; try discriminate P.
  destruct (field de_string "pre_shared_key" (ser_peer p)) as [psk|]; try discriminate P.
  destruct (field de_string "key_out" (ser_peer p)) as [out|]; try discriminate P.
  destruct (field (de_version variant) "protocol_version" (ser_peer p)) as [ver|]; try discriminate P.
  set (o := others peer_names (ser_peer p)) in *.
  assert (NoWg : forall n x, In (n, x) o -> wg_fields n = None).
  { intros n x I. destruct (wg_fields n) as [f|] eqn:E; [|reflexivity]. exfalso.
    assert (M : In n ["device"; "peer"; "extra_params"]) by (apply (wg_mine (n, x)); unfold mine; cbn [fst]; now rewrite E).
    destruct (peer_said variant p) as [_ S]. rewrite W in S. apply (S n M). unfold o, others in I. apply filter_In in I as [I _]. exact (in_names _ _ _ I). }
  assert (T : forall seen, flat_take wg_fields seen o = (Some [], o)).
  { clear -NoWg. induction o as [|(a & b) o IH]; intros seen; cbn [flat_take]; [reflexivity|]. rewrite (NoWg a b (or_introl eq_refl)).
    rewrite IH; [reflexivity|]. intros n x I. apply (NoWg n x). now right. }
  assert (E1 : de_wg o = (None, o)) by (unfold de_wg; rewrite T; reflexivity).
  assert (E2 : de_wg ((k, v) :: o) = (None, o)).
  { assert (Q : exists f, wg_fields k = Some f).
    { cbn [In] in K. destruct K as [<-|[<-|[<-|[]]]]; eexists; reflexivity. }
    destruct Q as (f & Q). unfold de_wg. cbn [flat_take]. rewrite Q. cbn [known existsb]. rewrite T. destruct (f v); [|reflexivity]. cbn [option_map]. f_equal.
    unfold taken, values. cbn [In] in K. destruct K as [<-|[<-|[<-|[]]]]; cbn [filter fst String.eqb Ascii.eqb Bool.eqb map snd]; try reflexivity. now destruct (de_string v). }
  rewrite E2. rewrite E1 in P. exact P.
Qed.
Print Assumptions C104_wireguard_refuted.

(** * C104: the whole configuration *)

(** The settings in the documentation of [Rosenpass]; `api` if it is compiled in *)
Definition config_settings (api : bool) : list string := (if api then ["api"] else []) ++ ["public_key"; "secret_key"; "listen"; "verbosity"; "peers"].
Definition is_list_of {X} (is : X -> tval -> Prop) (l : list X) (v : tval) : Prop := exists vs, v = TArr vs /\ Forall2 is l vs.
Definition is_number (z : Z) (v : tval) : Prop := v = TInt z /\ (-2147483648 <= z <= 2147483647)%Z.

Lemma de_all_spec {X} (f : tval -> option X) (is : X -> tval -> Prop) : (forall v x, f v = Some x <-> is x v) ->
  forall vs l, de_all f vs = Some l <-> Forall2 is l vs.
Proof.
  intros S. induction vs as [|v vs IH]; intros l; cbn [de_all].
  - split; intros H; [assert (l = []) as -> by congruence; constructor|]. inversion H. reflexivity.
  - split.
    + destruct (f v) as [x|] eqn:E; [|discriminate]. destruct (de_all f vs) as [r|] eqn:Er; [|discriminate]. intros H. assert (l = x :: r) as -> by congruence.
      constructor; [now apply S|now apply IH].
    + intros H. inversion H as [|x v' r vs' Hx Hr]. subst. apply S in Hx. apply IH in Hr. now rewrite Hx, Hr.
Qed.
Lemma de_list_spec {X} (f : tval -> option X) (is : X -> tval -> Prop) : (forall v x, f v = Some x <-> is x v) ->
  forall v l, de_list f v = Some l <-> is_list_of is l v.
Proof.
  intros S v l. unfold de_list, is_list_of. destruct v as [| | |vs| |]; try (split; [discriminate|intros (vs & E & _); discriminate E]).
  rewrite (de_all_spec f is S vs l). split; [intros H; now exists vs|]. intros (vs' & E & H). assert (vs' = vs) by congruence. now subst.
Qed.
Lemma de_i32_spec v z : de_i32 v = Some z <-> is_number z v.
Proof.
  unfold de_i32, de_int, is_number. destruct v as [|y| | | |]; try (split; [discriminate|intros [E _]; discriminate E]).
  destruct (Z.leb_spec (-2147483648) y), (Z.leb_spec y 2147483647); cbn [andb]; (split; [intros E; try discriminate E|intros [E R]]); try (assert (y = z) by congruence; subst y); try (split; [reflexivity|lia]); try reflexivity; lia.
Qed.

(** The API: every list has to be there *)
Definition is_api (a : api_config) (t : table) : Prop :=
  stated is_texts "listen_path" t (Some (ac_paths a)) /\ stated (is_list_of is_number) "listen_fd" t (Some (ac_listen a)) /\
  stated (is_list_of is_number) "stream_fd" t (Some (ac_stream a)) /\ (forall k, In k (settings t) -> In k ["listen_path"; "listen_fd"; "stream_fd"]).
Lemma others_nil ns t : others ns t = [] <-> (forall k, In k (settings t) -> In k ns).
Proof.
  split.
  - intros E k I. destruct (known ns k) eqn:K; [now apply known_in|]. exfalso. apply known_not in K.
    assert (J : In k (settings (others ns t))) by (apply (proj2 (others_name ns t k)); split; assumption). rewrite E in J. exact J.
  - intros H. destruct (others ns t) as [|(k & v) o] eqn:E; [reflexivity|]. exfalso. assert (J : In k (settings (others ns t))) by (rewrite E; now left).
    apply others_name in J as [N J]. exact (N (H k J)).
Qed.
Theorem C104_api t a : once_each t -> (de_api (TTab t) = Some a <-> is_api a t).
Proof.
  intros N. unfold de_api, is_api. split.
  - destruct (field de_strings "listen_path" t) as [[x|]|] eqn:E1; try discriminate. destruct (field (de_list de_i32) "listen_fd" t) as [[y|]|] eqn:E2; try discriminate.
    destruct (field (de_list de_i32) "stream_fd" t) as [[z|]|] eqn:E3; try discriminate. destruct (others api_names t) as [|e o] eqn:E4; try discriminate.
    intros H. match type of H with Some ?x = _ => assert (EP : a = x) by congruence end. rewrite EP. clear H EP a. cbn [ac_paths ac_listen ac_stream].
    apply (field_stated de_strings is_texts) in E1; [|apply de_strings_spec|exact N].
    apply (field_stated (de_list de_i32) (is_list_of is_number)) in E2; [|apply de_list_spec, de_i32_spec|exact N].
    apply (field_stated (de_list de_i32) (is_list_of is_number)) in E3; [|apply de_list_spec, de_i32_spec|exact N].
    split; [exact E1|]. split; [exact E2|]. split; [exact E3|]. now apply others_nil.
  - intros (E1 & E2 & E3 & E4).
    apply (field_stated de_strings is_texts) in E1; [|apply de_strings_spec|exact N]. rewrite E1.
    apply (field_stated (de_list de_i32) (is_list_of is_number)) in E2; [|apply de_list_spec, de_i32_spec|exact N]. rewrite E2.
    apply (field_stated (de_list de_i32) (is_list_of is_number)) in E3; [|apply de_list_spec, de_i32_spec|exact N]. rewrite E3.
    assert (others api_names t = []) as -> by now apply others_nil. now destruct a.
Qed.
Print Assumptions C104_api.

Section Whole.
Context (variant : tval -> option string) {A : Type} (parse_addr : string -> option A).
Definition is_address (x : A) (v : tval) : Prop := exists s, v = TStr s /\ parse_addr s = Some x.
Definition is_peer (p : peer) (v : tval) : Prop := exists t, v = TTab t /\ de_peer_table variant t = Some p.
(** Everything but the keys *)
Definition config_says (api : bool) (t : table) (c : config A) (a : api_config) : Prop :=
  stated (is_list_of is_address) "listen" t (Some (c_listen c)) /\ stated (is_list_of is_peer) "peers" t (Some (c_peers c)) /\
  stated_or (is_verbosity variant) Quiet "verbosity" t (c_verbosity c) /\
  (if api then stated_or (fun a v => de_api v = Some a) empty_api_config "api" t a else a = empty_api_config) /\
  c_api c = (length (ac_paths a) + length (ac_listen a) + length (ac_stream a))%nat /\ c_path c = "".
Definition keypair_says (t : table) (kp : option keypair) : Prop :=
  match kp with
  | Some k => keypair_stated t k
  | None => forall k, In k ["public_key"; "secret_key"] -> ~ In k (settings t)
  end.

Lemma is_address_spec v x : de_addr parse_addr v = Some x <-> is_address x v.
Proof.
  unfold de_addr, is_address. destruct v; try (split; [discriminate|intros (s' & E & _); discriminate E]).
  split; [intros H; now exists s|]. intros (s' & E & H). assert (s' = s) by congruence. now subst.
Qed.
Lemma is_peer_spec v x : de_peer variant v = Some x <-> is_peer x v.
Proof.
  unfold de_peer, is_peer. destruct v; try (split; [discriminate|intros (s' & E & _); discriminate E]).
  split; [intros H; now exists t|]. intros (s' & E & H). assert (s' = t) by congruence. now subst.
Qed.
Ltac not_mine api := let I := fresh in intros I; destruct api; cbn [In config_names] in I; decompose [or] I; discriminate || contradiction.
Lemma keypair_others api t k : keypair_stated (others (config_names api) t) k <-> keypair_stated t k.
Proof. unfold keypair_stated. rewrite !others_stated by not_mine api. tauto. Qed.
Lemma config_sound api t c a : once_each t -> de_config variant parse_addr api t = Some (c, a) ->
  config_says api t c a /\ (forall k, In k (settings t) -> In k (config_settings api)) /\ (forall k, c_keypair c = Some k <-> keypair_stated t k).
Proof.
  intros N H. unfold de_config in H.
  destruct (if api then field de_api "api" t else Some None) as [ao|] eqn:E1; try discriminate H.
  destruct (field (de_list (de_addr parse_addr)) "listen" t) as [[l|]|] eqn:E2; try discriminate H.
  destruct (field (de_verbosity variant) "verbosity" t) as [vb|] eqn:E3; try discriminate H.
  destruct (field (de_list (de_peer variant)) "peers" t) as [[ps|]|] eqn:E4; try discriminate H.
  assert (NO : once_each (others (config_names api) t)) by now apply once_filter.
  destruct (de_keypair (others (config_names api) t)) as [kp rest] eqn:EK. destruct rest as [|e rest]; [|discriminate H].
  destruct (de_keypair_spec _ _ _ NO EK) as (W1 & W2 & W3). cbn [filter] in W1.
  assert (EA : a = match ao with Some a => a | None => empty_api_config end) by congruence.
  match type of H with Some (?x, _) = _ => assert (EP : c = x) by congruence end. rewrite EP. clear H EP c.
  unfold config_says. cbn [c_keypair c_listen c_verbosity c_peers c_api c_path].
  split; [|split].
  - split; [now apply (field_stated (de_list (de_addr parse_addr)) (is_list_of is_address)); [apply de_list_spec, is_address_spec| |]|].
    split; [now apply (field_stated (de_list (de_peer variant)) (is_list_of is_peer)); [apply de_list_spec, is_peer_spec| |]|].
    split; [|split; [|split; [now rewrite EA|reflexivity]]].
    { destruct vb as [b|]; [left|right; split; [now apply (field_none _ _ _ E3)|reflexivity]]. now apply (field_stated (de_verbosity variant) (is_verbosity variant)); [apply de_verbosity_spec| |]. }
    destruct api; [|assert (ao = None) by congruence; now subst].
    destruct ao as [b|]; subst a; [left|right; split; [now apply (field_none _ _ _ E1)|reflexivity]].
    apply (field_stated de_api (fun a v => de_api v = Some a)); [reflexivity|exact N|exact E1].
  - intros k I. destruct (known (config_names api) k) eqn:K.
    + apply known_in in K. destruct api; cbn [In config_names config_settings app] in *; tauto.
    + apply known_not in K. apply names_in in I as (v & I). assert (I' : In (k, v) (others (config_names api) t)) by now apply others_in.
      destruct (mine keypair_fields (k, v)) eqn:M.
      * apply keypair_mine in M. destruct api; cbn [fst In config_settings app] in *; tauto.
      * assert (J : In (k, v) (filter (foreign keypair_fields) (others (config_names api) t))) by (apply filter_In; split; [exact I'|unfold foreign; now rewrite M]).
        rewrite <- W1 in J. contradiction.
  - intros k. split; [intros Ek; apply keypair_others with (api := api); now apply W2|intros Ek; apply W3; now apply keypair_others].
Qed.
Lemma config_complete api t c a : once_each t -> config_says api t c a -> keypair_says t (c_keypair c) -> (forall k, In k (settings t) -> In k (config_settings api)) ->
  de_config variant parse_addr api t = Some (c, a).
Proof.
  intros N (S1 & S2 & S3 & S4 & S5 & S6) W K. unfold de_config.
  assert (AA : exists ao, (if api then field de_api "api" t else Some None) = Some ao /\ match ao with Some a => a | None => empty_api_config end = a).
  { destruct api; [|exists None; split; [reflexivity|now rewrite S4]]. destruct S4 as [S4|[S4 E]].
    - exists (Some a). split; [|reflexivity]. apply (field_stated de_api (fun a v => de_api v = Some a)); [reflexivity|exact N|exact S4].
    - exists None. split; [|now rewrite E]. now apply field_absent. }
  destruct AA as (ao & -> & EA).
  apply (field_stated (de_list (de_addr parse_addr)) (is_list_of is_address)) in S1; [|apply de_list_spec, is_address_spec|exact N]. rewrite S1.
  apply (field_stated (de_list (de_peer variant)) (is_list_of is_peer)) in S2; [|apply de_list_spec, is_peer_spec|exact N].
  assert (V : exists v, field (de_verbosity variant) "verbosity" t = Some v /\ match v with Some b => b | None => Quiet end = c_verbosity c).
  { destruct S3 as [S3|[S3 E]].
    - exists (Some (c_verbosity c)). split; [|reflexivity]. apply (field_stated (de_verbosity variant) (is_verbosity variant)); [apply de_verbosity_spec|exact N|exact S3].
    - exists None. split; [|now rewrite E]. now apply field_absent. }
  destruct V as (v & -> & V). rewrite S2.
  assert (NO : once_each (others (config_names api) t)) by now apply once_filter.
  assert (NF : filter (foreign keypair_fields) (others (config_names api) t) = []).
  { destruct (filter (foreign keypair_fields) (others (config_names api) t)) as [|(k & x) q] eqn:F; [reflexivity|]. exfalso.
    assert (I : In (k, x) (filter (foreign keypair_fields) (others (config_names api) t))) by (rewrite F; now left). apply filter_In in I as [I M].
    apply in_names in I as J. apply others_name in J as [J1 J2]. specialize (K k J2).
    assert (M' : mine keypair_fields (k, x) = true) by (apply keypair_mine; destruct api; cbn [fst In config_settings config_names app] in *; tauto).
    unfold foreign in M. rewrite M' in M. discriminate. }
  assert (WR : de_keypair (others (config_names api) t) = (c_keypair c, [])).
  { destruct (de_keypair (others (config_names api) t)) as [kp rest] eqn:EW. destruct (de_keypair_spec _ _ _ NO EW) as (W1 & W2 & W3). destruct (c_keypair c) as [w|]; cbn [keypair_says] in W.
    - assert (kp = Some w) as -> by (apply W3; now apply keypair_others). f_equal. rewrite <- NF. now apply (W2 w).
    - assert (kp = None) as ->.
      { destruct kp as [w|]; [|reflexivity]. exfalso. destruct (W2 w eq_refl) as [((x & I & _) & _) _]. apply (W "public_key"); [now left|].
        apply (in_names "public_key" x). unfold others in I. now apply filter_In in I as [I _]. }
      f_equal. unfold de_keypair in EW. rewrite flat_all in EW; [congruence|exact NO| |intros ? ? []].
      intros k x f I O. exfalso. apply (W k); [apply (keypair_mine (k, x)); unfold mine; cbn [fst]; now rewrite O|].
      apply (in_names k x). unfold others in I. now apply filter_In in I as [I _]. }
  change (length (ac_paths a) + length (ac_listen a) + length (ac_stream a))%nat with (count_api_sources a) in S5. rewrite WR, EA, V, <- S5, <- S6. now destruct c.
Qed.
End Whole.

(** The configuration is the one in the table, and other settings are refused *)
Theorem C104_config_exact_partial variant {A} (parse_addr : string -> option A) api t c a : once_each t -> de_config variant parse_addr api t = Some (c, a) ->
  config_says variant parse_addr api t c a /\ (forall k, In k (settings t) -> In k (config_settings api)) /\ (forall k, c_keypair c = Some k <-> keypair_stated t k).
Proof. apply config_sound. Qed.
Print Assumptions C104_config_exact_partial.

Theorem C104_config_accepted variant {A} (parse_addr : string -> option A) api t c a : once_each t ->
  config_says variant parse_addr api t c a -> keypair_says t (c_keypair c) -> (forall k, In k (settings t) -> In k (config_settings api)) ->
  de_config variant parse_addr api t = Some (c, a).
Proof. apply config_complete. Qed.
Print Assumptions C104_config_accepted.

(** * Writing and reading it *)

(** The numbers of file descriptors are 32 bits wide *)
Definition api_fits (a : api_config) : Prop := Forall (fun z => -2147483648 <= z <= 2147483647)%Z (ac_listen a ++ ac_stream a).
Lemma numbers_said l : Forall (fun z => -2147483648 <= z <= 2147483647)%Z l -> is_list_of is_number l (TArr (map TInt l)).
Proof. intros F. exists (map TInt l). split; [reflexivity|]. induction F; cbn [map]; constructor; [split; [reflexivity|assumption]|assumption]. Qed.
Lemma api_said a : api_fits a -> de_api (ser_api a) = Some a.
Proof.
  intros F. unfold api_fits in F. apply Forall_app in F as [F1 F2]. unfold ser_api. apply C104_api.
  - unfold once_each. cbn [settings map fst]. repeat (constructor; [intros I; cbn [In] in I; decompose [or] I; discriminate || contradiction|]). constructor.
  - split; [exists (ser_strings (ac_paths a)); split; [now left|reflexivity]|].
    split; [exists (TArr (map TInt (ac_listen a))); split; [right; now left|now apply numbers_said]|].
    split; [exists (TArr (map TInt (ac_stream a))); split; [right; right; now left|now apply numbers_said]|].
    intros k I. exact I.
Qed.
(** What is written is read again, whatever it is; the notation of addresses is that of the standard library *)
Theorem C104_config_kept variant {A} (parse_addr : string -> option A) (show_addr : A -> string) api c a :
  (forall x, In x (c_listen c) -> parse_addr (show_addr x) = Some x) -> api_fits a -> (api = false -> a = empty_api_config) ->
  c_api c = (length (ac_paths a) + length (ac_listen a) + length (ac_stream a))%nat -> c_path c = "" ->
  de_config variant parse_addr api (ser_config show_addr api c a) = Some (c, a).
Proof.
  intros P F NA CA CP.
  assert (R : forall {X} (is : X -> tval -> Prop) k (x : X) val (t : table), In (k, val) t -> is x val -> stated is k t (Some x)) by (intros X is k x val t I E; exists val; split; assumption).
  apply config_complete.
  - unfold once_each, settings, ser_config. rewrite !map_app. destruct (c_keypair c), api; cbn [map app fst];
      repeat (constructor; [intros I; cbn [In] in I; decompose [or] I; discriminate || contradiction|]); constructor.
  - unfold config_says, ser_config, stated_or. split; [|split; [|split; [|split; [|split; assumption]]]].
    + eapply R; [rewrite !in_app_iff; do 2 right; now left|]. eexists. split; [reflexivity|]. induction (c_listen c) as [|x l IH]; cbn [map]; constructor.
      * exists (show_addr x). split; [reflexivity|]. apply P. now left.
      * apply IH. intros y I. apply P. now right.
    + eapply R; [rewrite !in_app_iff; do 2 right; right; right; now left|]. eexists. split; [reflexivity|]. induction (c_peers c) as [|x l IH]; cbn [map]; constructor; [|exact IH].
      exists (ser_peer x). split; [reflexivity|apply C104_peer_kept].
    + left. eapply R; [rewrite !in_app_iff; do 2 right; right; now left|]. unfold is_verbosity. now destruct (c_verbosity c).
    + destruct api; [|now apply NA]. left. eapply R; [rewrite !in_app_iff; right; left; now left|]. now apply api_said.
  - unfold keypair_says, keypair_stated, ser_config. destruct (c_keypair c) as [k|].
    + split; (eapply R; [rewrite !in_app_iff; left; cbn [In]|reflexivity]); tauto.
    + intros k K I. unfold settings in I. rewrite !map_app in I. destruct api; cbn [map app fst In] in *; decompose [or] I; decompose [or] K; subst; discriminate || contradiction.
  - intros k I. unfold settings, ser_config in I. rewrite !map_app in I. destruct (c_keypair c), api; cbn [map app fst In config_settings] in *; tauto.
Qed.
Print Assumptions C104_config_kept.

(** One of the two keys alone, of any type, is accepted and ignored *)
Theorem C104_keypair_refuted variant {A} (parse_addr : string -> option A) (show_addr : A -> string) api c a k v :
  (forall x, In x (c_listen c) -> parse_addr (show_addr x) = Some x) -> api_fits a -> (api = false -> a = empty_api_config) ->
  c_api c = (length (ac_paths a) + length (ac_listen a) + length (ac_stream a))%nat -> c_path c = "" -> c_keypair c = None -> In k ["public_key"; "secret_key"] ->
  de_config variant parse_addr api ((k, v) :: ser_config show_addr api c a) = Some (c, a).
Proof.
  intros P F NA CA CP W K. pose proof (C104_config_kept variant parse_addr show_addr api c a P F NA CA CP) as H. unfold de_config in *.
  assert (NK : ~ In k (config_names api)) by (intros I; destruct api; cbn [In config_names] in *; decompose [or] K; decompose [or] I; subst; discriminate || contradiction).
  set (s := ser_config show_addr api c a) in *.
  assert (FF : forall {X} (f : tval -> option X) n, In n (config_names api) -> field f n ((k, v) :: s) = field f n s).
  { intros X f n I. unfold field, values. cbn [filter fst]. destruct (String.eqb_spec n k) as [->|D]; [contradiction|reflexivity]. }
  assert (O : others (config_names api) ((k, v) :: s) = [(k, v)]).
  { unfold others. cbn [filter fst]. assert (known (config_names api) k = false) as -> by now apply known_not. cbn [negb]. f_equal. fold (others (config_names api) s).
    apply others_nil. intros n I. unfold s, settings, ser_config in I. rewrite W, !map_app in I. destruct api; cbn [map app fst In config_names] in *; tauto. }
  assert (O' : others (config_names api) s = []).
  { apply others_nil. intros n I. unfold s, settings, ser_config in I. rewrite W, !map_app in I. destruct api; cbn [map app fst In config_names] in *; tauto. }
  rewrite O. rewrite O' in H.
  assert (EA : (if api then field de_api "api" ((k, v) :: s) else Some None) = (if api then field de_api "api" s else Some None)).
  { destruct api; [|reflexivity]. apply FF. now left. }
  rewrite EA. rewrite !FF by (destruct api; cbn [In config_names]; tauto).
  assert (D : de_keypair [(k, v)] = de_keypair []).
  { unfold de_keypair. cbn [flat_take]. destruct K as [<-|[<-|[]]]; cbn [keypair_fields known existsb String.eqb Ascii.eqb Bool.eqb orb]; destruct (reads de_string v); try reflexivity;
      cbn [option_map taken values filter fst String.eqb Ascii.eqb Bool.eqb map snd]; f_equal; now destruct (de_string v). }
  rewrite D. exact H.
Qed.
Print Assumptions C104_keypair_refuted.

(** * The configuration of rp *)

Definition is_flag (b : bool) (v : tval) : Prop := v = TBool b.
Definition is_seconds (n : N) (v : tval) : Prop := v = TInt (Z.of_N n) /\ (n <= 4294967295)%N.
Lemma de_bool_spec v b : de_bool v = Some b <-> is_flag b v.
Proof. unfold is_flag. destruct v; cbn [de_bool]; split; congruence. Qed.
Lemma de_u32_spec v n : de_u32 v = Some n <-> is_seconds n v.
Proof.
  unfold de_u32, de_int, is_seconds. destruct v as [|y| | | |]; try (split; [discriminate|intros [E _]; discriminate E]).
  destruct (Z.leb_spec 0 y), (Z.leb_spec y 4294967295); cbn [andb option_map]; (split; [intros E; try discriminate E|intros [E R]]);
    try (assert (n = Z.to_N y) as -> by congruence; split; [f_equal|]; lia); assert (y = Z.of_N n) by congruence; subst y; try (f_equal; lia); lia.
Qed.
Section RpSpec.
Context (variant : tval -> option string) (parse_sock : string -> option addr).
Definition is_sock (x : addr) (v : tval) : Prop := exists s, v = TStr s /\ parse_sock s = Some x.
Lemma is_sock_spec v x : de_sock parse_sock v = Some x <-> is_sock x v.
Proof.
  unfold de_sock, is_sock. destruct v; try (split; [discriminate|intros (s' & E & _); discriminate E]).
  split; [intros H; now exists s|]. intros (s' & E & H). assert (s' = s) by congruence. now subst.
Qed.
Definition xpeer_says (t : table) (p : xpeer) : Prop :=
  stated is_text "public_keys_dir" t (Some (x_dir p)) /\ stated is_sock "endpoint" t (x_endpoint p) /\ stated is_seconds "persistent_keepalive" t (x_keepalive p) /\
  stated is_text "allowed_ips" t (x_ips p) /\ stated_or (is_version variant) false "protocol_version" t (x_v03 p) /\
  (forall k, In k (settings t) -> In k ["public_keys_dir"; "endpoint"; "persistent_keepalive"; "allowed_ips"; "protocol_version"]).
Definition is_xpeer (p : xpeer) (v : tval) : Prop := exists t, v = TTab t /\ de_xpeer variant parse_sock (TTab t) = Some p.
Definition xopts_says (t : table) (o : xopts) : Prop :=
  stated is_flag "verbose" t (Some (o_verbose o)) /\ stated is_text "private_keys_dir" t (Some (o_dir o)) /\ stated is_text "dev" t (o_dev o) /\
  stated is_text "ip" t (o_ip o) /\ stated is_sock "listen" t (o_listen o) /\ stated (is_list_of is_xpeer) "peers" t (Some (o_peers o)) /\
  (forall k, In k (settings t) -> In k ["verbose"; "private_keys_dir"; "dev"; "ip"; "listen"; "peers"]).
Lemma is_xpeer_spec v x : de_xpeer variant parse_sock v = Some x <-> is_xpeer x v.
Proof.
  unfold is_xpeer. split.
  - intros H. destruct v; try discriminate H. now exists t.
  - intros (t & -> & H). exact H.
Qed.
End RpSpec.

(** A configuration file of rp is accepted exactly if it has the documented settings, and all of them are the ones used *)
Theorem C104_rp_peer variant parse_sock t p : once_each t -> (de_xpeer variant parse_sock (TTab t) = Some p <-> xpeer_says variant parse_sock t p).
Proof.
  intros N. unfold de_xpeer, xpeer_says. split.
  - destruct (field de_string "public_keys_dir" t) as [[x1|]|] eqn:E1; try discriminate. destruct (field (de_sock parse_sock) "endpoint" t) as [x2|] eqn:E2; try discriminate.
    destruct (field de_u32 "persistent_keepalive" t) as [x3|] eqn:E3; try discriminate. destruct (field de_string "allowed_ips" t) as [x4|] eqn:E4; try discriminate.
    destruct (field (de_version variant) "protocol_version" t) as [x5|] eqn:E5; try discriminate. destruct (others xpeer_names t) as [|e o] eqn:E6; try discriminate.
    intros H. match type of H with Some ?x = _ => assert (EP : p = x) by congruence end. rewrite EP. clear H EP p. cbn [x_dir x_endpoint x_keepalive x_ips x_v03].
    apply (field_stated de_string is_text) in E1; [|apply de_string_spec|exact N].
    apply (field_stated (de_sock parse_sock) (is_sock parse_sock)) in E2; [|apply is_sock_spec|exact N].
    apply (field_stated de_u32 is_seconds) in E3; [|apply de_u32_spec|exact N].
    apply (field_stated de_string is_text) in E4; [|apply de_string_spec|exact N].
    repeat (split; [assumption|]). split; [|now apply others_nil].
    destruct x5 as [b|]; [left|right; split; [now apply (field_none _ _ _ E5)|reflexivity]]. now apply (field_stated (de_version variant) (is_version variant)); [apply de_version_spec| |].
  - intros (E1 & E2 & E3 & E4 & E5 & E6).
    apply (field_stated de_string is_text) in E1; [|apply de_string_spec|exact N]. rewrite E1.
    apply (field_stated (de_sock parse_sock) (is_sock parse_sock)) in E2; [|apply is_sock_spec|exact N]. rewrite E2.
    apply (field_stated de_u32 is_seconds) in E3; [|apply de_u32_spec|exact N]. rewrite E3.
    apply (field_stated de_string is_text) in E4; [|apply de_string_spec|exact N]. rewrite E4.
    assert (others xpeer_names t = []) as -> by now apply others_nil.
    destruct E5 as [E5|[E5 E]].
    + apply (field_stated (de_version variant) (is_version variant)) in E5; [|apply de_version_spec|exact N]. rewrite E5. now destruct p.
    + rewrite (field_absent (de_version variant) _ _ E5). destruct p as [d1 e1 k1 i1 v1]. cbn [x_v03] in E. now subst.
Qed.
Print Assumptions C104_rp_peer.
Theorem C104_rp variant parse_sock t o : once_each t -> (de_xopts variant parse_sock t = Some o <-> xopts_says variant parse_sock t o).
Proof.
  intros N. unfold de_xopts, xopts_says. split.
  - destruct (field de_bool "verbose" t) as [[x1|]|] eqn:E1; try discriminate. destruct (field de_string "private_keys_dir" t) as [[x2|]|] eqn:E2; try discriminate.
    destruct (field de_string "dev" t) as [x3|] eqn:E3; try discriminate. destruct (field de_string "ip" t) as [x4|] eqn:E4; try discriminate.
    destruct (field (de_sock parse_sock) "listen" t) as [x5|] eqn:E5; try discriminate.
    destruct (field (de_list (de_xpeer variant parse_sock)) "peers" t) as [[x6|]|] eqn:E6; try discriminate. destruct (others xopts_names t) as [|e q] eqn:E7; try discriminate.
    intros H. match type of H with Some ?x = _ => assert (EP : o = x) by congruence end. rewrite EP. clear H EP o. cbn [o_verbose o_dir o_dev o_ip o_listen o_peers].
    apply (field_stated de_bool is_flag) in E1; [|apply de_bool_spec|exact N].
    apply (field_stated de_string is_text) in E2; [|apply de_string_spec|exact N].
    apply (field_stated de_string is_text) in E3; [|apply de_string_spec|exact N].
    apply (field_stated de_string is_text) in E4; [|apply de_string_spec|exact N].
    apply (field_stated (de_sock parse_sock) (is_sock parse_sock)) in E5; [|apply is_sock_spec|exact N].
    apply (field_stated (de_list (de_xpeer variant parse_sock)) (is_list_of (is_xpeer variant parse_sock))) in E6; [|apply de_list_spec, is_xpeer_spec|exact N].
    repeat (split; [assumption|]). now apply others_nil.
  - intros (E1 & E2 & E3 & E4 & E5 & E6 & E7).
    apply (field_stated de_bool is_flag) in E1; [|apply de_bool_spec|exact N]. rewrite E1.
    apply (field_stated de_string is_text) in E2; [|apply de_string_spec|exact N]. rewrite E2.
    apply (field_stated de_string is_text) in E3; [|apply de_string_spec|exact N]. rewrite E3.
    apply (field_stated de_string is_text) in E4; [|apply de_string_spec|exact N]. rewrite E4.
    apply (field_stated (de_sock parse_sock) (is_sock parse_sock)) in E5; [|apply is_sock_spec|exact N]. rewrite E5.
    apply (field_stated (de_list (de_xpeer variant parse_sock)) (is_list_of (is_xpeer variant parse_sock))) in E6; [|apply de_list_spec, is_xpeer_spec|exact N]. rewrite E6.
    assert (others xopts_names t = []) as -> by now apply others_nil. now destruct o.
Qed.
Print Assumptions C104_rp.

(** * Examples *)

(** The table of [EXAMPLE_CONFIG], config.rs 731-748 *)
Definition example_table : table :=
  [("public_key", TStr "/path/to/rp-public-key"); ("secret_key", TStr "/path/to/rp-secret-key"); ("listen", TArr []); ("verbosity", TStr "Verbose");
   ("peers", TArr [TTab [("public_key", TStr "/path/to/rp-peer-public-key"); ("endpoint", TStr "127.0.0.1:9998"); ("key_out", TStr "/path/to/rp-key-out.txt")]])].
(** It is understood, whatever addresses look like *)
Example C104_example : once_each example_table /\
  exists c, de_config (fun _ => None) (fun s => Some s) true example_table = Some (c, empty_api_config) /\
    c_keypair c = Some {| k_public := "/path/to/rp-public-key"; k_secret := "/path/to/rp-secret-key" |} /\
    c_peers c = [{| p_public := "/path/to/rp-peer-public-key"; p_endpoint := Some "127.0.0.1:9998"; p_psk := None; p_key_out := Some "/path/to/rp-key-out.txt"; p_wg := None;
                    p_v03 := false; p_org := None; p_label := None |}].
Proof.
  split.
  - unfold once_each. cbn [settings example_table map fst]. repeat (constructor; [intros I; cbn [In] in I; decompose [or] I; discriminate || contradiction|]). constructor.
  - eexists. split; [reflexivity|]. split; reflexivity.
Qed.
(** With a complete set of settings, with a device only, with a misspelled setting, with a number for a text, and with settings after one that cannot be read *)
Definition small (l : table) : option peer := de_peer_table (fun _ => None) (("public_key", TStr "pk") :: l).
Example C104_cases :
  option_map p_wg (small [("device", TStr "wg0"); ("peer", TStr "AA==")]) = Some (Some {| wg_device := "wg0"; wg_peer := "AA=="; wg_extra := [] |}) /\
  option_map p_wg (small [("device", TStr "wg0"); ("extra_params", TArr [TStr "x"])]) = Some None /\
  small [("pre_shared_keys", TStr "psk")] = None /\ small [("pre_shared_key", TInt 5)] = None /\ small [("osk_label", TStr "x")] = None /\
  small [("device", TInt 0); ("peer", TStr "AA==")] = None /\
  option_map p_wg (small [("device", TStr "wg0"); ("peer", TInt 0)]) = Some None /\
  option_map p_v03 (small [("protocol_version", TStr "V03")]) = Some true /\ small [("protocol_version", TStr "v03")] = None.
Proof. repeat split; reflexivity. Qed.
Example C104_rp_case :
  de_xopts (fun _ => None) (fun _ => None) [("verbose", TBool true); ("private_keys_dir", TStr "k"); ("peers", TArr [TTab [("public_keys_dir", TStr "p"); ("persistent_keepalive", TInt 25)]])]
  = Some {| o_verbose := true; o_dir := "k"; o_dev := None; o_ip := None; o_listen := None;
            o_peers := [{| x_dir := "p"; x_endpoint := None; x_keepalive := Some 25%N; x_ips := None; x_v03 := false |}] |} /\
  de_xopts (fun _ => None) (fun _ => None) [("private_keys_dir", TStr "k"); ("peers", TArr [])] = None.
Proof. split; reflexivity. Qed.

(** * C105: a configuration that is saved *)

(** A path of the home directory *)
Definition tilde (p : path) : Prop := p = "~" \/ exists s, p = ("~/" ++ s)%string.
Definition opt_path (x : option path) : list path := match x with Some p => [p] | None => [] end.
(** The paths that are read from or written to *)
Definition config_paths {A} (c : config A) : list path :=
  match c_keypair c with Some k => [k_public k; k_secret k] | None => [] end ++ flat_map (fun p => [p_public p] ++ opt_path (p_psk p) ++ opt_path (p_key_out p)) (c_peers c).

Lemma resolve_plain home p : ~ tilde p -> resolve_tilde home p = p.
Proof.
  intros T. destruct p as [|c p]; [reflexivity|]. unfold resolve_tilde. destruct (Ascii.ascii_dec c "~"%char) as [->|D].
  - destruct p as [|d p]; [exfalso; apply T; now left|]. destruct (Ascii.ascii_dec d "/"%char) as [->|D].
    + exfalso. apply T. right. exists p. reflexivity.
    + destruct d as [b0 b1 b2 b3 b4 b5 b6 b7]; destruct b0, b1, b2, b3, b4, b5, b6, b7; try reflexivity. exfalso. now apply D.
  - destruct c as [b0 b1 b2 b3 b4 b5 b6 b7]; destruct b0, b1, b2, b3, b4, b5, b6, b7; try reflexivity. exfalso. now apply D.
Qed.
Lemma parsed_plain {A} (resolve : string -> option (list A)) args c : parse_args resolve args = Ok c -> c_api c = 0 /\ c_path c = "".
Proof.
  intros P. destruct (C42_nothing_else resolve args c P) as (l & x & _ & _ & _ & _ & (c0 & (So & _) & Cut)).
  destruct So as (_ & _ & _ & A0 & P0). destruct x as [|k|d]; [subst; auto|subst; auto|]. destruct Cut as (dn & q & _ & ->). auto.
Qed.

Section Saved.
Context {A : Type}.
(** The syntax of toml and of addresses *)
Context (parse : bytes -> option table) (print : table -> bytes) (variant : tval -> option string) (parse_addr : string -> option A) (show_addr : A -> string).
Context (home : path) (api : bool).
(** config.rs 275-300 [load], 309-314 [store] *)
Definition toml_of (d : bytes) : option (config A) := match parse d with Some t => option_map fst (de_config variant parse_addr api t) | None => None end.
Definition toml_to (c : config A) : bytes := print (ser_config show_addr api c empty_api_config).

Lemma saved_back c : parse (toml_to c) = Some (ser_config show_addr api c empty_api_config) ->
  (forall x, In x (c_listen c) -> parse_addr (show_addr x) = Some x) -> c_api c = 0 -> c_path c = "" -> toml_of (toml_to c) = Some c.
Proof.
  intros R RA EA EP. unfold toml_of. assert (parse (toml_to c) = Some (ser_config show_addr api c empty_api_config)) as -> by exact R.
  rewrite (C104_config_kept variant parse_addr show_addr api c empty_api_config); [reflexivity|exact RA|constructor|reflexivity|exact EA|exact EP].
Qed.
Lemma load_plain c F f : contents f F = Some (toml_to c) -> toml_of (toml_to c) = Some c -> (forall p, In p (config_paths c) -> ~ tilde p) ->
  load_config toml_of home F f = Some (with_path c F).
Proof.
  intros C T P. unfold load_config. rewrite C, T. f_equal. unfold config_paths in P. destruct c as [kp l v ps n q]. cbn [c_keypair c_peers with_keypair with_peers with_path c_listen c_verbosity c_api] in *.
  unfold with_path, with_peers, with_keypair. cbn [c_keypair c_peers c_listen c_verbosity c_api]. f_equal.
  - destruct kp as [[a b]|]; [|reflexivity]. cbn [option_map k_public k_secret]. rewrite !resolve_plain; [reflexivity| |]; apply P; cbn [app In k_public k_secret]; tauto.
  - assert (P' : forall p x, In p ps -> In x ([p_public p] ++ opt_path (p_psk p) ++ opt_path (p_key_out p)) -> ~ tilde x).
    { intros p x I J. apply P. apply in_or_app. right. apply in_flat_map. exists p. split; assumption. }
    clear P C T. induction ps as [|p ps IH]; cbn [map]; [reflexivity|]. rewrite IH by (intros q' x I; apply P'; now right). f_equal. clear IH.
    specialize (P' p). destruct p as [a e k o w u y z]. unfold resolve_peer, with_key_out, with_psk, with_public. cbn [p_public p_endpoint p_psk p_key_out p_wg p_v03 p_org p_label] in *.
    rewrite (resolve_plain home a) by (apply P'; [now left|now left]). f_equal.
    + destruct k as [k|]; [|reflexivity]. cbn [option_map]. f_equal. apply resolve_plain. apply P'; [now left|]. right. now left.
    + destruct o as [o|]; [|reflexivity]. cbn [option_map]. f_equal. apply resolve_plain. apply P'; [now left|]. rewrite !in_app_iff. right. right. now left.
Qed.
End Saved.
Definition run_saved {A} (resolve : string -> option (list A)) junk parse print variant parse_addr show_addr example home umask api api_args gen_sk gen_pk rand :=
  run resolve junk (toml_of parse variant parse_addr api) (toml_to print show_addr api) example home umask api api_args gen_sk gen_pk rand.

(** The server that runs with a configuration that was saved is the one for which it was saved *)
Theorem C105_restart_partial {A} resolve junk parse print variant parse_addr (show_addr : A -> string) example home umask api api_args gen_sk gen_pk rand w1 w2 w3 w4 args F f f' s :
  (forall c, parse_args resolve args = Ok c -> parse (print (ser_config show_addr api c empty_api_config)) = Some (ser_config show_addr api c empty_api_config)) ->
  (forall c x, parse_args resolve args = Ok c -> In x (c_listen c) -> parse_addr (show_addr x) = Some x) -> is_file f F = true \/ f F = None ->
  run_saved resolve junk parse print variant parse_addr show_addr example home umask api api_args gen_sk gen_pk rand w1 w2 (Exchange args (Some F)) f = (f', Running s) ->
  (forall c p, parse_args resolve args = Ok c -> In p (config_paths c) -> ~ tilde p) ->
  run_saved resolve junk parse print variant parse_addr show_addr example home umask api api_args gen_sk gen_pk rand w3 w4 (ExchangeConfig F) f' = (f', Running s).
Proof.
  intros R RA FF H P. unfold run_saved in *. cbn [run] in *. destruct (parse_args resolve args) as [c| |] eqn:PA; [|discriminate H..].
  destruct (parsed_plain resolve args c PA) as [EA EP].
  destruct (write_file umask M_DEFAULT w1 F (toml_to print show_addr api c) f) as [f1 ok] eqn:W. destruct ok; [|discriminate H]. assert (f1 = f') by congruence. subst f1.
  assert (C : contents f' F = Some (toml_to print show_addr api c)).
  { pose proof (write_ok umask M_DEFAULT w1 F (toml_to print show_addr api c) f) as K. rewrite W in K. specialize (K eq_refl). destruct K as [_ K].
    destruct FF as [FF|FF].
    - unfold is_file in FF. destruct (f F) as [[m d|m|m]|]; try discriminate FF. assert (f' = fset f F (NFile m (toml_to print show_addr api c))) as -> by congruence.
      unfold contents. now rewrite fset_same.
    - rewrite FF in K. assert (f' = fset f F (NFile (N.ldiff M_DEFAULT umask) (toml_to print show_addr api c))) as -> by congruence. unfold contents. now rewrite fset_same. }
  rewrite (load_plain parse print variant parse_addr show_addr home api c F f' C).
  - congruence.
  - apply saved_back; [now apply R|intros x I; now apply (RA c x)|exact EA|exact EP].
  - intros p I. now apply (P c p).
Qed.
Print Assumptions C105_restart_partial.

(** Paths of the home directory are other files for the command that saved them *)
Theorem C105_home_refuted {A} resolve junk parse print variant parse_addr (show_addr : A -> string) example home umask api api_args gen_sk gen_pk rand w2 w3 w4 F f mp ms pk sk :
  (forall c, parse (print (ser_config show_addr api c empty_api_config)) = Some (ser_config show_addr api c empty_api_config)) ->
  f "~/pk" = Some (NFile mp pk) -> N.of_nat (length pk) = SPK_LEN -> f "~/sk" = Some (NFile ms sk) -> N.of_nat (length sk) = SSK_LEN ->
  f F = None -> F <> join home "pk" -> f (join home "pk") = None ->
  exists f' s,
    run_saved resolve junk parse print variant parse_addr show_addr example home umask api api_args gen_sk gen_pk rand WAll w2
      (Exchange ["public-key"; "~/pk"; "secret-key"; "~/sk"] (Some F)) f = (f', Running s) /\ s_keys s = Some (sk, pk) /\
    run_saved resolve junk parse print variant parse_addr show_addr example home umask api api_args gen_sk gen_pk rand w3 w4 (ExchangeConfig F) f' = (f', Failed).
Proof.
  intros R E1 L1 E2 L2 FF NF NH. set (c := {| c_keypair := Some {| k_public := "~/pk"; k_secret := "~/sk" |}; c_listen := ([] : list A); c_verbosity := Quiet; c_peers := []; c_api := 0; c_path := "" |}).
  assert (PA : parse_args resolve ["public-key"; "~/pk"; "secret-key"; "~/sk"] = Ok c) by reflexivity.
  set (f' := fset f F (NFile (N.ldiff M_DEFAULT umask) (toml_to print show_addr api c))).
  assert (W : write_file umask M_DEFAULT WAll F (toml_to print show_addr api c) f = (f', true)) by (unfold write_file; now rewrite FF).
  assert (O : forall q, q <> F -> f' q = f q) by (intros q D; unfold f', fset; destruct (String.eqb_spec q F); [contradiction|reflexivity]).
  assert (D1 : "~/pk" <> F) by (intros X; rewrite <- X in FF; congruence). assert (D2 : "~/sk" <> F) by (intros X; rewrite <- X in FF; congruence).
  assert (K1 : load SPK_LEN "~/pk" f' = Some pk) by (apply C68_exact; split; [exists mp; now rewrite O|exact L1]).
  assert (K2 : load SSK_LEN "~/sk" f' = Some sk) by (apply C68_exact; split; [exists ms; now rewrite O|exact L2]).
  assert (I1 : is_file f' "~/pk" = true) by (unfold is_file; now rewrite (O _ D1), E1). assert (I2 : is_file f' "~/sk" = true) by (unfold is_file; now rewrite (O _ D2), E2).
  exists f', {| s_keys := Some (sk, pk); s_listen := []; s_peers := [] |}. split; [|split; [reflexivity|]].
  - unfold run_saved. cbn [run]. rewrite PA, W. f_equal. unfold serve, validate. cbn [c with_path c_keypair c_peers k_public k_secret forallb]. unfold loads. rewrite I1, I2, K1, K2. cbn [andb].
    destruct api; unfold useful, start; cbn [c with_api with_path c_keypair c_peers c_listen c_verbosity c_api c_path k_secret k_public start_peers]; rewrite K1, K2; reflexivity.
  - unfold run_saved. cbn [run]. unfold load_config. assert (C : contents f' F = Some (toml_to print show_addr api c)) by (unfold contents, f'; now rewrite fset_same). rewrite C.
    unfold toml_of. unfold toml_to at 1. rewrite R. rewrite (C104_config_kept variant parse_addr show_addr api c empty_api_config); [|intros x []|constructor|reflexivity|reflexivity|reflexivity].
    cbn [option_map fst c c_keypair c_peers k_public k_secret map with_keypair with_peers with_path c_listen c_verbosity c_api]. f_equal. unfold serve, validate.
    cbn [c_keypair k_public with_path with_peers with_keypair]. change (resolve_tilde home "~/pk") with (join home "pk").
    unfold is_file at 1. assert (f' (join home "pk") = None) as -> by (rewrite O; auto). reflexivity.
Qed.
Print Assumptions C105_home_refuted.

(** The case of [C105_restart_partial]: the keys are those of [keys_fs], and the syntax is one in which the saved file can be read *)
Definition key_args : list string := ["public-key"; "pk"; "secret-key"; "sk"; "verbose"].
Definition key_table : table :=
  [("public_key", TStr "pk"); ("secret_key", TStr "sk"); ("listen", TArr []); ("verbosity", TStr "Verbose"); ("peers", TArr [])].
Example C105_case : exists f' s,
  run_saved no_resolve (fun _ _ => None) (fun _ => Some key_table) (fun _ => []) (fun _ => None) (fun _ => Some 0) (fun _ => "") [] "/home" 0%N false 0 [] [] (fun _ => []) WAll WAll
    (Exchange key_args (Some "d")) keys_fs = (f', Running s) /\
  run_saved no_resolve (fun _ _ => None) (fun _ => Some key_table) (fun _ => []) (fun _ => None) (fun _ => Some 0) (fun _ => "") [] "/home" 0%N false 0 [] [] (fun _ => []) WAll WAll
    (ExchangeConfig "d") f' = (f', Running s).
Proof.
  assert (K1 : load SPK_LEN "pk" (fset keys_fs "d" (NFile (N.ldiff M_DEFAULT 0) [])) = Some (zeros (N.to_nat SPK_LEN))).
  { apply C68_exact. split; [exists 420%N; reflexivity|]. unfold zeros. now rewrite repeat_length, N2Nat.id. }
  assert (K2 : load SSK_LEN "sk" (fset keys_fs "d" (NFile (N.ldiff M_DEFAULT 0) [])) = Some (zeros (N.to_nat SSK_LEN))).
  { apply C68_exact. split; [exists 384%N; reflexivity|]. unfold zeros. now rewrite repeat_length, N2Nat.id. }
  set (f' := fset keys_fs "d" (NFile (N.ldiff M_DEFAULT 0) [])) in *.
  set (s := {| s_keys := Some (zeros (N.to_nat SSK_LEN), zeros (N.to_nat SPK_LEN)); s_listen := ([] : list nat); s_peers := [] |}).
  set (c := {| c_keypair := Some {| k_public := "pk"; k_secret := "sk" |}; c_listen := ([] : list nat); c_verbosity := Verbose; c_peers := []; c_api := 0; c_path := "" |}).
  assert (PA : parse_args no_resolve key_args = Ok c) by reflexivity.
  assert (S : serve no_resolve (fun _ _ => None) false 0 (fun _ => []) (with_path c "d") f' = Running s).
  { unfold serve, validate. cbn [c with_path c_keypair c_peers k_public k_secret forallb]. unfold loads. rewrite K1, K2.
    change (is_file f' "pk") with true. change (is_file f' "sk") with true. cbn [andb]. unfold useful, start. cbn [c with_path c_keypair c_peers c_listen c_verbosity c_api c_path k_secret k_public start_peers]. now rewrite K1, K2. }
  assert (W : write_file 0 M_DEFAULT WAll "d" (toml_to (fun _ => []) (fun _ : nat => "") false c) keys_fs = (f', true)) by reflexivity.
  assert (E : run_saved no_resolve (fun _ _ => None) (fun _ => Some key_table) (fun _ => []) (fun _ => None) (fun _ => Some 0) (fun _ => "") [] "/home" 0%N false 0 [] [] (fun _ => []) WAll WAll
    (Exchange key_args (Some "d")) keys_fs = (f', Running s)).
  { unfold run_saved. cbn [run]. rewrite PA, W, S. reflexivity. }
  exists f', s. split; [exact E|].
  apply (C105_restart_partial no_resolve (fun _ _ => None) (fun _ => Some key_table) (fun _ => []) (fun _ => None) (fun _ => Some 0) (fun _ => "") [] "/home" 0%N false 0 [] [] (fun _ => []) WAll WAll WAll WAll
    key_args "d" keys_fs).
  - intros c' E'. rewrite PA in E'. assert (c' = c) as -> by congruence. reflexivity.
  - intros c' x E'. rewrite PA in E'. assert (c' = c) as -> by congruence. intros [].
  - right. reflexivity.
  - exact E.
  - intros c' p E'. rewrite PA in E'. assert (c' = c) as -> by congruence. intros [<-|[<-|[]]] [T|(q & T)]; discriminate T.
Qed.
