(** C117: from [set_psk] to WireGuard: the clients of the broker, its socket handler, the privileged process and netlink together. *)
From Verif Require Import Base Wire Lpe PLpe Broker PBroker Handler PHandler.

(** * Specification *)

Section Spec.
Context (utf8 : bytes -> bool).

(** The netlink broker with calls to the kernel that may fail: the [n]-th one fails if the list has [false] there.
    No code in /repo: netlink.rs 154-186 with what the kernel does. *)
Definition netlink (c : bconfig) (s : kernel * list bool) : (kernel * list bool) * option nl_err :=
  let (k, r) := netlink_set_psk utf8 (hd true (snd s)) c (fst s) in ((k, tl (snd s)), r).
(** The broker is started when WireGuard has the keys [k], and then [h] happens. *)
Definition runs (k : kernel) (fails : list bool) (h : list hev) (st : handler_st (kernel * list bool)) : Prop :=
  hhist utf8 netlink nl_conv (hstart (k, fails)) h st.
(** WireGuard's keys *)
Definition keys (st : handler_st (kernel * list bool)) : kernel := fst (h_inner st).

(** Connection [i] of the broker is that of a process that did [ops], with results [rs], and has written [out]; some of it may be on its way. *)
Definition client (h : list hev) (i : nat) (ops : list bop) (rs : list (option (res (set_err bio_err) unit))) (out : bytes) : Prop :=
  Forall op_typed ops /\ exists src s, bsteps utf8 ops (bstart src) = (s, rs) /\ out = bs_out s /\ exists transit, out = sent i h ++ transit.
(** Only such processes connect to the broker. *)
Definition only_clients (h : list hev) (ops : nat -> list bop) : Prop := forall i, exists rs out, client h i (ops i) rs out.

(** The key in the last of some calls that is for the peer *)
Definition for_peer (iface peer : bytes) (c : bconfig) : bool := byteseq (g_iface c) iface && byteseq (g_peer c) peer.
Definition last_for (iface peer : bytes) (cs : list bconfig) : option bytes :=
  fold_left (fun o c => if for_peer iface peer c then Some (g_psk c) else o) cs None.
(** The calls of one client in a list of calls of all *)
Definition of_client (i : nat) (l : list (nat * bconfig)) : list bconfig := map snd (filter (fun x => Nat.eqb (fst x) i) l).
End Spec.

(** * Requests and what they ask for *)

Lemma sublist_in {A} (a b : list A) x : sublist a b -> In x a -> In x b.
Proof. intros S. induction S; intros H; [exact H|destruct H; [left|right]; auto|right; auto]. Qed.
Lemma sublist_forall {A} (P : A -> Prop) a b : sublist a b -> Forall P b -> Forall P a.
Proof. intros S F. rewrite Forall_forall in *. intros x H. apply F. eapply sublist_in; eauto. Qed.
Lemma sublist_length {A} (a b : list A) : sublist a b -> length a <= length b.
Proof. intros S. induction S; cbn [length]; lia. Qed.
Lemma sublist_trans {A} (b c : list A) : sublist b c -> forall a, sublist a b -> sublist a c.
Proof.
  intros S. induction S as [|x b c S IH|x b c S IH]; intros a H; [exact H| |].
  - inversion H; subst; constructor; auto.
  - constructor. auto.
Qed.
Lemma sublist_eq {A} (a b : list A) : sublist a b -> length b <= length a -> a = b.
Proof.
  intros S. induction S as [|x a b S IH|x a b S IH]; cbn [length]; intros L; [reflexivity|f_equal; apply IH; lia|].
  apply sublist_length in S. lia.
Qed.
Lemma sublist_prefix {A} (a b : list A) : sublist a (a ++ b).
Proof. rewrite <- (app_nil_r a) at 1. apply sublist_app; [apply sublist_refl|apply sublist_nil]. Qed.

Lemma same_len_app {A} (a b c d : list A) : length a = length b -> a ++ c = b ++ d -> a = b /\ c = d.
Proof.
  revert b. induction a as [|x a IH]; intros [|y b] L E; try discriminate L; [auto|].
  cbn [List.app] in E. injection E as -> E. destruct (IH b) as [-> ->]; auto.
Qed.

(** The fields in a request are those of one configuration. *)
Lemma asked_same c c' rest rest' : typed c -> typed c' -> length (g_iface c) < 256 -> length (g_iface c') < 256 ->
  g_psk c ++ g_peer c ++ le_enc 1 (N.of_nat (length (g_iface c))) ++ g_iface c ++ rest =
  g_psk c' ++ g_peer c' ++ le_enc 1 (N.of_nat (length (g_iface c'))) ++ g_iface c' ++ rest' -> asked c = asked c'.
Proof.
  intros (A & B) (A' & B') L L' E. apply same_len_app in E; [|congruence]. destruct E as [E1 E].
  apply same_len_app in E; [|congruence]. destruct E as [E2 E].
  apply same_len_app in E; [|now rewrite !le_enc_length]. destruct E as [E3 E].
  assert (E4 : length (g_iface c) = length (g_iface c')).
  { apply (f_equal le_dec) in E3. rewrite !le_dec_enc, !N.mod_small in E3 by (change (pow256 1) with 256%N; lia). lia. }
  apply same_len_app in E; [|exact E4]. destruct E as [E5 _]. unfold asked. congruence.
Qed.

Lemma for_peer_spec iface peer c : for_peer iface peer c = true <-> g_iface c = iface /\ g_peer c = peer.
Proof. unfold for_peer. rewrite andb_true_iff, !byteseq_spec. tauto. Qed.

Lemma last_default iface peer cs o : fold_left (fun o c => if for_peer iface peer c then Some (g_psk c) else o) cs o =
  match last_for iface peer cs with Some key => Some key | None => o end.
Proof.
  unfold last_for. induction cs as [|c cs IH] using rev_ind; [reflexivity|]. rewrite !fold_left_app. cbn [fold_left].
  destruct (for_peer iface peer c); [reflexivity|apply IH].
Qed.
(** Calls for other peers do not count. *)
Lemma last_other iface peer i L : (forall j c, In (j, c) L -> j <> i -> for_peer iface peer c = false) ->
  last_for iface peer (map snd L) = last_for iface peer (of_client i L).
Proof.
  unfold last_for, of_client. generalize (@None bytes). induction L as [|(j, c) L IH]; intros o H; [reflexivity|].
  cbn [map filter fst snd fold_left]. destruct (Nat.eqb_spec j i) as [->|Ne].
  - cbn [map snd fold_left]. apply IH. intros j c' I. apply (H j). now right.
  - rewrite (H j c (or_introl eq_refl) Ne). apply IH. intros j' c' I. apply (H j'). now right.
Qed.

Section Through.
Context (utf8 : bytes -> bool).
Notation good := (good utf8).

Lemma wire_fields c : skipn 4 (wire c) = g_psk c ++ g_peer c ++ le_enc 1 (N.of_nat (length (g_iface c))) ++ g_iface c ++ zeros (255 - length (g_iface c)).
Proof. reflexivity. Qed.
Lemma good_valid c : good c -> valid utf8 (wire c).
Proof.
  intros (T & U & L). exists c, (zeros (255 - length (g_iface c))). split; [exact T|]. split; [exact U|]. split; [lia|].
  split; [apply wire_length; [exact T|lia]|]. split; reflexivity.
Qed.
Lemma wires_len cs : Forall good cs -> Forall (fun m => length m <= 324) (map wire cs).
Proof.
  intros G. apply Forall_forall. intros m H. apply in_map_iff in H. destruct H as (c & <- & H).
  rewrite Forall_forall in G. destruct (G c H) as (T & _ & L). rewrite wire_length; [lia|exact T|lia].
Qed.

(** A client puts requests into its buffer for good configurations only. *)
Lemma sent_good ops : forall s s' rs, Forall op_typed ops -> bsteps utf8 ops s = (s', rs) ->
  exists cs, bs_sent s' = bs_sent s ++ map wire cs /\ Forall good cs.
Proof.
  induction ops as [|o ops IH]; intros s s' rs T B; cbn [bsteps] in B.
  - injection B as <- <-. exists []. rewrite app_nil_r. split; [reflexivity|constructor].
  - inversion T as [|? ? To Tl]; subst. destruct (bstep utf8 o s) as [s1 r] eqn:St.
    assert (C1 : exists cs, bs_sent s1 = bs_sent s ++ map wire cs /\ Forall good cs).
    { destruct o as [c v|ws rs'|l]; cbn [bstep] in St.
      - unfold mio_set_psk in St. rewrite request_ok in St by exact To. destruct (utf8 (g_iface c)) eqn:U.
        + destruct (Nat.ltb_spec (length (g_iface c)) 256) as [L|L].
          * destruct (send_msg v (wire c) (bs_client s)) as [[[b out] put] r0]. injection St as <- _. cbn [bs_sent]. destruct put.
            -- exists [c]. split; [reflexivity|]. constructor; [|constructor]. split; [exact To|]. split; [exact U|lia].
            -- exists []. split; [reflexivity|constructor].
          * injection St as <- _. cbn [bs_sent]. exists []. split; [reflexivity|constructor].
        + injection St as <- _. cbn [bs_sent]. exists []. split; [reflexivity|constructor].
      - destruct (bpoll ws rs' (bs_client s) (bs_in s)) as [[[b src] out] r0]. injection St as <- _. cbn [bs_sent]. exists []. rewrite app_nil_r. split; [reflexivity|constructor].
      - injection St as <- _. cbn [bs_sent]. exists []. rewrite app_nil_r. split; [reflexivity|constructor]. }
    destruct C1 as (cs1 & E1 & G1). destruct r as [r|].
    + destruct (bsteps utf8 ops s1) as [s2 rs2] eqn:Bs. injection B as <- <-. destruct (IH _ _ _ Tl Bs) as (cs2 & E2 & G2).
      exists (cs1 ++ cs2). rewrite map_app, app_assoc, <- E1. split; [exact E2|]. apply Forall_app. auto.
    + injection B as <- <-. exists cs1. auto.
Qed.

Lemma wire_good c c' : typed c -> good c' -> wire c = wire c' -> good c.
Proof.
  intros Tc (Tc' & U & L) W. apply (f_equal (@skipn byte 4)) in W. rewrite !wire_fields in W.
  assert (Ln : length (g_iface c) <= 255).
  { apply (f_equal (@length byte)) in W. rewrite !app_length, !le_enc_length, !zeros_length in W. destruct Tc as [A B], Tc' as [A' B']. lia. }
  apply asked_same in W; [|exact Tc|exact Tc'|lia|lia]. assert (X : g_iface c = g_iface c') by (apply (f_equal g_iface) in W; exact W).
  split; [exact Tc|]. rewrite X. split; [exact U|exact L].
Qed.
Lemma wires_good cs : forall cs', Forall typed cs -> Forall good cs' -> map wire cs = map wire cs' -> Forall good cs.
Proof.
  induction cs as [|c cs IH]; intros [|c' cs'] Ty G M; try discriminate M; constructor; inversion Ty; inversion G; subst; cbn [map] in M.
  - apply wire_good with (c' := c'); [assumption|assumption|congruence].
  - apply IH with (cs' := cs'); [assumption|assumption|congruence].
Qed.
Lemma calls_typed ops : Forall op_typed ops -> Forall typed (calls ops).
Proof.
  intros T. induction T as [|o ops To T IH]; [constructor|].
  unfold calls. cbn [flat_map]. apply Forall_app. split; [destruct o; [constructor; [exact To|constructor]|constructor|constructor]|exact IH].
Qed.

(** What a client has put into its buffer: requests for some of its calls, in order *)
Lemma puts ops src s rs : Forall op_typed ops -> bsteps utf8 ops (bstart src) = (s, rs) ->
  exists cs later, sublist (succeeded ops rs) cs /\ sublist cs (calls ops) /\ Forall good cs /\ bs_sent s = map wire cs /\ bs_out s ++ later = frames (map wire cs).
Proof.
  intros T B.
  destruct (steps_inv utf8 _ _ _ _ _ _ _ T (binv_start src) B) as (done & pend & data & _ & I & _ & _ & cs & E & S1 & S2).
  destruct (sent_good _ _ _ _ T B) as (cs' & E' & G). cbn [bstart bs_sent List.app] in E, E'.
  exists cs, pend. split; [exact S1|]. split; [exact S2|]. split; [|split; [exact E|rewrite (bi_out _ _ _ _ I), E; reflexivity]].
  apply wires_good with (cs' := cs'); [|exact G|congruence]. apply sublist_forall with (b := calls ops); [exact S2|]. now apply calls_typed.
Qed.
Lemma client_writes h i ops rs out : client utf8 h i ops rs out ->
  exists cs later, sublist (succeeded ops rs) cs /\ sublist cs (calls ops) /\ Forall good cs /\ out ++ later = frames (map wire cs).
Proof.
  intros (T & src & s & B & -> & _). destruct (puts _ _ _ _ T B) as (cs & later & S1 & S2 & G & _ & W). exists cs, later. auto.
Qed.

Lemma cut_map ms : forall cs c, map wire cs = ms ++ c -> exists cs1 cs2, cs = cs1 ++ cs2 /\ ms = map wire cs1.
Proof.
  induction ms as [|m ms IH]; intros cs c Ec; [exists [], cs; auto|].
  destruct cs as [|x cs]; cbn [map List.app] in Ec; [discriminate|]. assert (X : map wire cs = ms ++ c) by congruence.
  destruct (IH cs c X) as (c1 & c2 & -> & ->). exists (x :: c1), c2. split; [reflexivity|]. cbn [map]. f_equal. congruence.
Qed.
Lemma cut_frames cs ms later : Forall good cs -> Forall (fun m => length m <= 324) ms -> frames (map wire cs) = frames ms ++ later ->
  exists cs1 cs2, cs = cs1 ++ cs2 /\ ms = map wire cs1.
Proof.
  intros G F E. destruct (frames_le (map wire cs) ms later []) as (c & Ec).
  - now apply wires_len.
  - exact F.
  - now rewrite app_nil_r.
  - intros m rest L X. symmetry in X. apply app_eq_nil in X. destruct X as [X _]. now apply frame_cons_ne in X.
  - apply cut_map with (c := c). exact Ec.
Qed.

(** * The keys after some requests *)

Notation keeps := (netlink utf8).
Definition ask_list (cs : list bconfig) (s : kernel * list bool) : kernel * list bool := fold_left (fun s c => fst (keeps (asked c) s)) cs s.

Lemma served_asks s l out s' : served utf8 keeps nl_conv s l out s' -> forall L, Forall good (map snd L) -> l = map (fun x => (fst x, wire (snd x))) L ->
  s' = ask_list (map snd L) s.
Proof.
  intros H. induction H as [s|s i m c rest s1 r l out s2 T U Ln Lm F1 Sk A H IH|s i m l out s2 NV H IH]; intros L G E.
  - destruct L; [reflexivity|discriminate].
  - destruct L as [|(j, c') L]; [discriminate|]. cbn [map fst snd] in *. inversion G as [|? ? Gc G']; subst.
    assert (Em : m = wire c') by congruence. rewrite (IH L G') by congruence. cbn [ask_list fold_left]. f_equal.
    rewrite Em, wire_fields in Sk. destruct Gc as (T' & U' & L').
    apply asked_same in Sk; [|exact T'|exact T|lia|lia]. now rewrite Sk, A.
  - destruct L as [|(j, c') L]; [discriminate|]. cbn [map fst snd] in *. inversion G as [|? ? Gc G']; subst.
    assert (Em : m = wire c') by congruence. destruct NV. rewrite Em. now apply good_valid.
Qed.

(** One request changes one key at most. *)
Lemma one_key c s iface peer : 
  (forall key, key_of iface peer (fst (fst (keeps (asked c) s))) = Some key ->
     key_of iface peer (fst s) = Some key \/ for_peer iface peer c = true /\ key = g_psk c) /\
  (key_of iface peer (fst (fst (keeps (asked c) s))) = None <-> key_of iface peer (fst s) = None) /\
  (snd s = [] -> utf8 (g_iface c) = true -> key_of iface peer (fst s) <> None -> snd (fst (keeps (asked c) s)) = [] /\
     key_of iface peer (fst (fst (keeps (asked c) s))) = if for_peer iface peer c then Some (g_psk c) else key_of iface peer (fst s)).
Proof.
  destruct s as [k fails]. unfold netlink. cbn [fst snd]. destruct (netlink_set_psk utf8 (hd true fails) (asked c) k) as [k' r] eqn:N. cbn [fst snd].
  pose proof (C38_netlink _ _ _ _ _ _ N) as H. destruct r as [e|]; cbn [asked g_iface g_peer g_psk] in H.
  - subst k'. split; [auto|]. split; [tauto|]. intros -> U K. cbn [tl hd] in *. split; [reflexivity|].
    destruct (for_peer iface peer c) eqn:P; [|reflexivity]. apply for_peer_spec in P. destruct P as [<- <-]. exfalso.
    unfold netlink_set_psk in N. cbn [asked g_iface g_peer g_psk] in N. rewrite U in N. unfold key_of in K.
    destruct (wg_get (g_iface c) k) as [d|]; [|congruence]. destruct (existsb (fun p => byteseq (fst p) (g_peer c)) d) eqn:X; [discriminate|].
    apply K. clear - X. induction d as [|p d IH]; [reflexivity|]. cbn [existsb find option_map] in *. apply orb_false_iff in X. destruct X as [X1 X2].
    rewrite X1. auto.
  - destruct H as (H1 & H2 & H3). destruct (for_peer iface peer c) eqn:P.
    + apply for_peer_spec in P. destruct P as [<- <-]. rewrite H2. split; [intros key Hk; right; split; [reflexivity|congruence]|].
      split; [split; [discriminate|congruence]|]. intros -> _ _. split; reflexivity.
    + assert (Ne : (iface, peer) <> (g_iface c, g_peer c)).
      { intros X. assert (Y : for_peer iface peer c = true) by (apply for_peer_spec; split; congruence). congruence. }
      rewrite (H3 _ _ Ne). split; [auto|]. split; [tauto|]. intros -> _ _. split; reflexivity.
Qed.

Lemma all_keys cs : forall s iface peer,
  (forall key, key_of iface peer (fst (ask_list cs s)) = Some key ->
     key_of iface peer (fst s) = Some key \/ exists c, In c cs /\ g_iface c = iface /\ g_peer c = peer /\ g_psk c = key) /\
  (key_of iface peer (fst (ask_list cs s)) = None <-> key_of iface peer (fst s) = None).
Proof.
  induction cs as [|c cs IH]; intros s iface peer; [split; [auto|tauto]|]. unfold ask_list. cbn [fold_left].
  fold (ask_list cs (fst (keeps (asked c) s))). destruct (IH (fst (keeps (asked c) s)) iface peer) as [A B].
  destruct (one_key c s iface peer) as (O1 & O2 & _). split.
  - intros key H. destruct (A key H) as [X|(c' & I & X)]; [|right; exists c'; split; [now right|exact X]].
    destruct (O1 key X) as [Y|(P & ->)]; [auto|]. right. exists c. apply for_peer_spec in P. split; [now left|tauto].
  - rewrite B. exact O2.
Qed.

Lemma last_keys cs : forall k iface peer o, Forall good cs -> key_of iface peer k <> None -> key_of iface peer k = o ->
  key_of iface peer (fst (ask_list cs (k, []))) = fold_left (fun o c => if for_peer iface peer c then Some (g_psk c) else o) cs o.
Proof.
  induction cs as [|c cs IH]; intros k iface peer o G K E; [exact E|]. inversion G as [|? ? (T & U & L) G']; subst.
  unfold ask_list. cbn [fold_left]. fold (ask_list cs (fst (keeps (asked c) (k, [])))).
  destruct (one_key c (k, []) iface peer) as (_ & O2 & O3). destruct (O3 eq_refl U K) as [O4 O5]. cbn [fst] in *.
  destruct (fst (keeps (asked c) (k, []))) as [k1 f1]. cbn [fst snd] in *. subst f1. apply IH; auto. rewrite O2. exact K.
Qed.

(** The calls of one list, by client *)
Lemma of_client_in i c l : In c (of_client i l) <-> In (i, c) l.
Proof.
  unfold of_client. rewrite in_map_iff. split.
  - intros ((j, x) & Ex & H). apply filter_In in H. destruct H as [H Ej]. cbn [fst snd] in *. apply Nat.eqb_eq in Ej. congruence.
  - intros H. exists (i, c). split; [reflexivity|]. apply filter_In. split; [exact H|]. cbn [fst]. apply Nat.eqb_refl.
Qed.

(** Requests handled that are those of the clients *)
Lemma lift_requests (l : list (nat * bytes)) : forall P : nat -> list bconfig -> Prop,
  (forall i, exists cs, of_conn i l = map wire cs /\ P i cs) ->
  exists L, l = map (fun x => (fst x, wire (snd x))) L /\ forall i, P i (of_client i L).
Proof.
  induction l as [|(j, m) l IH]; intros P H.
  - exists []. split; [reflexivity|]. intros i. destruct (H i) as (cs & E & Pc). destruct cs; [exact Pc|discriminate].
  - destruct (H j) as (csj & Ej & Pj). unfold of_conn in Ej. cbn [filter fst] in Ej. rewrite Nat.eqb_refl in Ej.
    destruct csj as [|c csj]; [discriminate|]. cbn [map snd] in Ej.
    destruct (IH (fun i cs => P i (if Nat.eqb j i then c :: cs else cs))) as (L & E & PL).
    + intros i. destruct (Nat.eqb_spec j i) as [<-|Ne].
      * exists csj. split; [unfold of_conn; congruence|exact Pj].
      * destruct (H i) as (cs & Ei & Pi). unfold of_conn in Ei. cbn [filter fst] in Ei. destruct (Nat.eqb_spec j i); [contradiction|]. exists cs. auto.
    + exists ((j, c) :: L). split; [cbn [map fst snd]; rewrite <- E; f_equal; congruence|]. intros i. specialize (PL i). unfold of_client in *.
      cbn [filter fst]. destruct (Nat.eqb j i); exact PL.
Qed.

Lemma of_conn_client i L : of_conn i (map (fun x => (fst x, wire (snd x))) L) = map wire (of_client i L).
Proof.
  unfold of_conn, of_client. induction L as [|(j, c) L IH]; [reflexivity|]. cbn [map filter fst snd]. destruct (Nat.eqb j i); cbn [map snd]; congruence.
Qed.

(** What the broker did: calls of the clients, of each the first ones it wrote, in order *)
Lemma broker_did k fails h st ops : runs utf8 k fails h st -> only_clients utf8 h ops ->
  exists l out L, inv utf8 (netlink utf8) nl_conv (k, fails) h st l out /\ l = map (fun x => (fst x, wire (snd x))) L /\
    h_inner st = ask_list (map snd L) (k, fails) /\ Forall good (map snd L) /\
    forall i, sublist (of_client i L) (calls (ops i)) /\
      forall rs out, client utf8 h i (ops i) rs out -> exists cs, sublist (succeeded (ops i) rs) cs /\ sublist cs (calls (ops i)) /\
        Forall good cs /\ (exists later, out ++ later = frames (map wire cs)) /\ exists cs2, map wire cs = map wire (of_client i L) ++ map wire cs2.
Proof.
  intros R C. destruct (reach utf8 (netlink utf8) nl_conv _ _ _ R) as (l & out & V).
  pose proof (i_llen _ _ _ _ _ _ _ _ V) as Ll. destruct (inv_order _ _ _ _ _ _ _ _ V) as [Sv O].
  assert (Cut : forall i rs o, client utf8 h i (ops i) rs o -> exists cs cs1 cs2 later, sublist (succeeded (ops i) rs) cs /\ sublist cs (calls (ops i)) /\
    Forall good cs /\ o ++ later = frames (map wire cs) /\ cs = cs1 ++ cs2 /\ of_conn i l = map wire cs1).
  { intros i rs o Ci. destruct (client_writes _ _ _ _ _ Ci) as (cs & later & S1 & S2 & G & W).
    destruct Ci as (_ & src & s & _ & _ & transit & Eo). destruct (O i) as [(rest & Es) _].
    destruct (cut_frames cs (of_conn i l) (rest ++ transit ++ later) G) as (cs1 & cs2 & E1 & E2).
    - apply Forall_forall. intros m Hm. apply of_conn_in in Hm. rewrite Forall_forall in Ll. apply (Ll (i, m) Hm).
    - rewrite <- W, Eo, Es, <- !app_assoc. reflexivity.
    - exists cs, cs1, cs2, later. auto 8. }
  destruct (lift_requests l (fun i cs => Forall good cs /\ sublist cs (calls (ops i)))) as (L & EL & PL).
  { intros i. destruct (C i) as (rs & o & Ci). destruct (Cut i rs o Ci) as (cs & cs1 & cs2 & later & _ & S2 & G & _ & -> & E).
    exists cs1. split; [exact E|]. apply Forall_app in G. split; [apply G|]. eapply sublist_trans; [exact S2|]. apply sublist_prefix. }
  assert (GL : Forall good (map snd L)).
  { apply Forall_forall. intros c Hc. apply in_map_iff in Hc. destruct Hc as ((i, c') & <- & Hc). cbn [snd]. destruct (PL i) as [G _].
    rewrite Forall_forall in G. apply G. now apply of_client_in. }
  exists l, out, L. split; [exact V|]. split; [exact EL|]. split; [apply served_asks with (l := l) (out := out); auto|]. split; [exact GL|].
  intros i. split; [apply PL|]. intros rs o Ci. destruct (Cut i rs o Ci) as (cs & cs1 & cs2 & later & S1 & S2 & G & W & Ec & E).
  exists cs. split; [exact S1|]. split; [exact S2|]. split; [exact G|]. split; [eauto|]. exists cs2.
  rewrite Ec, map_app, <- E, EL, of_conn_client. reflexivity.
Qed.

(** * C117 *)

(** Whatever the clients do and however the processes are scheduled, killed or interrupted: a key that WireGuard has for a peer is the one it had
    at the beginning, or one that a client has handed over for this peer of this interface; and no peers appear or vanish. *)
Theorem C117_origin : forall k fails h st ops iface peer, runs utf8 k fails h st -> only_clients utf8 h ops ->
  (forall key, key_of iface peer (keys st) = Some key -> key_of iface peer k = Some key \/
     exists i c, In c (calls (ops i)) /\ g_iface c = iface /\ g_peer c = peer /\ g_psk c = key) /\
  (key_of iface peer (keys st) = None <-> key_of iface peer k = None).
Proof.
  intros k fails h st ops iface peer R C. destruct (broker_did _ _ _ _ _ R C) as (l & out & L & _ & _ & Ei & _ & PL). unfold keys. rewrite Ei.
  destruct (all_keys (map snd L) (k, fails) iface peer) as [A B]. split; [|exact B].
  intros key H. destruct (A key H) as [X|(c & I & X)]; [auto|]. right. apply in_map_iff in I. destruct I as ((i, c') & <- & I).
  exists i, c'. split; [|exact X]. destruct (PL i) as [S _]. apply sublist_in with (a := of_client i L); [exact S|]. now apply of_client_in.
Qed.

(** While the calls to the kernel work, the keys are those of the last calls that were handled: of each client the first calls whose requests
    it wrote, in its order. *)
Theorem C117_order : forall k h st ops, runs utf8 k [] h st -> only_clients utf8 h ops ->
  exists L, (forall i, sublist (of_client i L) (calls (ops i))) /\
    forall iface peer, key_of iface peer (keys st) =
      match key_of iface peer k with
      | Some old => match last_for iface peer (map snd L) with Some key => Some key | None => Some old end
      | None => None
      end.
Proof.
  intros k h st ops R C. destruct (broker_did _ _ _ _ _ R C) as (l & out & L & _ & _ & Ei & G & PL). exists L.
  split; [intros i; apply PL|]. intros iface peer. unfold keys. rewrite Ei. destruct (key_of iface peer k) as [old|] eqn:K.
  - rewrite (last_keys (map snd L) k iface peer (Some old)) by (auto; congruence). apply last_default.
  - apply all_keys. exact K.
Qed.

(** When a client's calls succeeded, it has written all of its requests, nothing is on its way, and the broker waits, then WireGuard's key for a peer for which
    no other client hands over keys is the one of its last call for this peer. *)
Theorem C117_last : forall k h st ops i rs out iface peer key, runs utf8 k [] h st -> only_clients utf8 h ops -> client utf8 h i (ops i) rs out ->
  succeeded (ops i) rs = calls (ops i) -> length out = 332 * length (calls (ops i)) -> sent i h = out ->
  quiet utf8 (netlink utf8) nl_conv st -> h_alive st = true -> ~ In (EClose i) h ->
  (forall j c, j <> i -> In c (calls (ops j)) -> for_peer iface peer c = false) ->
  last_for iface peer (calls (ops i)) = Some key -> key_of iface peer k <> None -> key_of iface peer (keys st) = Some key.
Proof.
  intros k h st ops i rs o iface peer key R C Ci Su Len Se Q A NC Oth La K.
  destruct (broker_did _ _ _ _ _ R C) as (l & out & L & V & EL & Ei & G & PL). unfold keys. rewrite Ei.
  destruct (key_of iface peer k) as [old|] eqn:Ko; [|congruence].
  rewrite (last_keys (map snd L) k iface peer (Some old)) by (auto; congruence). rewrite last_default.
  rewrite (last_other iface peer i).
  2:{ intros j c I Ne. apply (Oth j c Ne). destruct (PL j) as [S _]. apply sublist_in with (a := of_client j L); [exact S|]. now apply of_client_in. }
  assert (Vl : Forall (fun x => valid utf8 (snd x)) l).
  { rewrite EL. apply Forall_forall. intros x X. apply in_map_iff in X. destruct X as (y & <- & Y). cbn [snd].
    rewrite Forall_forall in G. apply good_valid, G, in_map. exact Y. }
  assert (Ns : ~ stuck (h_broker st) (h_stdin st) (h_stdout st)).
  { intros X. apply (i_stuck _ _ _ _ _ _ _ _ V A) in X. apply Exists_exists in X. destruct X as (x & J & NV). rewrite Forall_forall in Vl. exact (NV (Vl x J)). }
  destruct (at_rest _ _ _ _ _ _ _ _ V Q A Ns i NC) as (rest & S1 & U & _).
  destruct (PL i) as [Sub W]. destruct (W rs o Ci) as (cs & T1 & T2 & Gc & (later & Wl) & cs2 & E2).
  assert (cs = calls (ops i)) as Ecs.
  { apply sublist_eq; [exact T2|]. apply sublist_length in T1. rewrite Su in T1. exact T1. }
  assert (later = []) as ->.
  { assert (Lf : forall cs, Forall good cs -> length (frames (map wire cs)) = 332 * length cs).
    { clear. intros cs G. induction G as [|c cs (T & _ & L) G IH]; [reflexivity|]. cbn [map length]. rewrite frames_cons, app_length, frame_length, wire_length, IH by (auto; lia). lia. }
    apply (f_equal (@length byte)) in Wl. rewrite app_length, (Lf cs Gc), Ecs in Wl. destruct later; [reflexivity|cbn [length] in Wl; lia]. }
  rewrite app_nil_r in Wl.
  assert (cs2 = []) as ->.
  { destruct cs2 as [|c cs2]; [reflexivity|]. exfalso. rewrite EL, of_conn_client in S1. rewrite Se, Wl, E2, frames_app in S1. apply app_inv_head in S1.
    cbn [map] in S1. rewrite frames_cons in S1. apply (U (wire c) (frames (map wire cs2))); [|now symmetry].
    pose proof (wires_len cs Gc) as Lw. rewrite E2 in Lw. apply Forall_app in Lw. destruct Lw as [_ Lw]. cbn [map] in Lw. now inversion Lw. }
  cbn [map] in E2. rewrite app_nil_r in E2.
  assert (of_client i L = calls (ops i)) as ->.
  { apply sublist_eq; [exact Sub|]. apply (f_equal (@length bytes)) in E2. rewrite !map_length in E2. rewrite <- Ecs. lia. }
  now rewrite La.
Qed.

(** The steps of the broker itself send nothing to it and end nothing. *)
Lemma moves_hist st es st' : moves utf8 (netlink utf8) nl_conv st es st' -> hhist utf8 (netlink utf8) nl_conv st es st' /\ Forall internal es.
Proof.
  intros M. induction M as [st|st e l st' I _ M [IH1 IH2]]; [split; constructor|]. split; [|constructor; assumption].
  constructor; [|exact IH1]. destruct e; try contradiction; exact Logic.I.
Qed.
Lemma internal_sent i es : Forall internal es -> sent i es = [].
Proof. intros F. induction F as [|e es I F IH]; [reflexivity|]. unfold sent in *. cbn [map concat]. destruct e; try contradiction; exact IH. Qed.
Lemma hist_app a : forall h b h' c, hhist utf8 (netlink utf8) nl_conv a h b -> hhist utf8 (netlink utf8) nl_conv b h' c -> hhist utf8 (netlink utf8) nl_conv a (h ++ h') c.
Proof. intros h b h' c H H2. induction H; cbn [List.app]; [exact H2|]. constructor; auto. Qed.
Lemma alive_step s0 h st l out e : inv utf8 (netlink utf8) nl_conv s0 h st l out -> h_alive st = true -> internal e ->
  h_alive (hstep utf8 (netlink utf8) nl_conv st e) = true.
Proof.
  intros V A I. pose proof (i_pipes _ _ _ _ _ _ _ _ V) as P. destruct e; try contradiction; cbn [hstep].
  - destruct (nth_error (h_conns st) c) as [co|]; [|exact A]. unfold task_step.
    destruct (c_task co) as [| | | |[|]|]; try exact A; try (destruct (h_broker st); try exact A; destruct (Nat.ltb _ _); exact A). destruct (c_gone co); exact A.
  - unfold broker_step. destruct (h_broker st); [destruct (h_queue st) as [|[]]; [exact A|]; rewrite A; reflexivity| |exact A].
    destruct (Nat.ltb _ 8); [rewrite A; exact A|]. destruct (N.ltb _ _); [exact A|].
    destruct (Nat.ltb _ _); [rewrite A; exact A|].
    destruct (nth_error _ _) as [co|]; [|exact A]. destruct (c_task co); exact A.
  - unfold priv_go. rewrite A. destruct (h_broker st) as [|c|] eqn:B; cbn [pipes_ok] in P.
    + destruct P as [-> _]. cbn [accept_request length Nat.ltb Nat.leb andb]. exact A.
    + destruct P as [[-> _]|(m & -> & Lm & _)]; [cbn [accept_request length Nat.ltb Nat.leb andb]; exact A|].
      rewrite accept_frame by exact Lm. destruct (priv_step _ _ _ _ _); reflexivity.
    + destruct P as [P _]. congruence.
Qed.
Lemma alive_moves s0 st es st' : moves utf8 (netlink utf8) nl_conv st es st' -> forall h, hhist utf8 (netlink utf8) nl_conv (hstart s0) h st -> h_alive st = true -> h_alive st' = true.
Proof.
  intros M. induction M as [st|st e l st' I _ M IH]; intros h H A; [exact A|].
  destruct (reach utf8 (netlink utf8) nl_conv _ _ _ H) as (l1 & out & V).
  apply (IH (h ++ [e])); [|eapply alive_step; eauto]. eapply hist_app; [exact H|]. constructor; [destruct e; try contradiction; exact Logic.I|constructor].
Qed.

(** If nothing interferes, the key gets there: once a client's calls succeeded, its requests are written and nothing is on its way, the broker's processes can make only so
    many steps, under every schedule, and when they can make no more, WireGuard has the key of the last call. *)
Theorem C117_arrives : forall k h st ops i rs out iface peer key, runs utf8 k [] h st -> only_clients utf8 h ops -> client utf8 h i (ops i) rs out ->
  succeeded (ops i) rs = calls (ops i) -> length out = 332 * length (calls (ops i)) -> sent i h = out -> h_alive st = true -> ~ In (EClose i) h ->
  (forall j c, j <> i -> In c (calls (ops j)) -> for_peer iface peer c = false) ->
  last_for iface peer (calls (ops i)) = Some key -> key_of iface peer k <> None ->
  (exists n, forall es st', moves utf8 (netlink utf8) nl_conv st es st' -> length es <= n) /\
  (exists es st', moves utf8 (netlink utf8) nl_conv st es st' /\ quiet utf8 (netlink utf8) nl_conv st') /\
  forall es st', moves utf8 (netlink utf8) nl_conv st es st' -> quiet utf8 (netlink utf8) nl_conv st' -> key_of iface peer (keys st') = Some key.
Proof.
  intros k h st ops i rs out iface peer key R C Ci Su Len Se A NC Oth La K.
  destruct (C114_settles utf8 (netlink utf8) nl_conv st) as [B1 B2]. split; [exact B1|]. split; [exact B2|].
  intros es st' M Q. destruct (moves_hist _ _ _ M) as [Mh Mi].
  assert (Sn : forall j, sent j (h ++ es) = sent j h) by (intros j; rewrite sent_app, (internal_sent j es Mi); apply app_nil_r).
  assert (Cl : forall j o r x, client utf8 h j o r x -> client utf8 (h ++ es) j o r x).
  { intros j o r x (T & src & s & Bs & Ex & tr & Et). split; [exact T|]. exists src, s. split; [exact Bs|]. split; [exact Ex|]. exists tr. now rewrite Sn. }
  apply (C117_last k (h ++ es) st' ops i rs out iface peer key); auto.
  - eapply hist_app; eauto.
  - intros j. destruct (C j) as (r & x & Cj). eauto.
  - now rewrite Sn.
  - eapply alive_moves; eauto.
  - rewrite in_app_iff. intros [X|X]; [auto|]. rewrite Forall_forall in Mi. exact (Mi _ X).
Qed.

Lemma begun_unfinished c n : good c -> n <= 8 -> unfinished (firstn n (frame (wire c))).
Proof.
  intros (T & _ & L) Hn m rest Lm E. assert (Lw : length (wire c) = 324) by (apply wire_length; [exact T|lia]).
  assert (Ln : length (firstn n (frame (wire c))) = n) by (rewrite firstn_length, frame_length, Lw; lia).
  assert (n = 8) as ->. { rewrite E, app_length, frame_length in Ln. lia. }
  destruct (frame_split (wire c) []) as (F1 & _ & F3); [lia|]. rewrite app_nil_r in F1.
  destruct (frame_split m rest Lm) as (G1 & _ & G3).
  assert (X : firstn 8 (frame (wire c)) = firstn 8 (frame m ++ rest)).
  { rewrite <- E. symmetry. rewrite <- Ln at 1. apply firstn_all. }
  rewrite F1, G1 in X. apply (f_equal le_dec) in X. rewrite F3, G3, Lw in X.
  rewrite E, app_length, frame_length in Ln. lia.
Qed.

(** But a call that has returned successfully has written eight bytes at most of its request: as long as the client does not go on to poll the
    broker, WireGuard does not get the key, whatever the broker does and however long one waits; a key that it has for the peer is an older one. *)
Theorem C117_unpolled_refuted : forall k fails h st ops i src s rs c v s' key, runs utf8 k fails h st ->
  (forall j, j <> i -> exists rs out, client utf8 h j (ops j) rs out) ->
  Forall op_typed (ops i) -> typed c -> bsteps utf8 (ops i) (bstart src) = (s, rs) -> bstep utf8 (BSet c v) s = (s', Some (Ok tt)) ->
  (exists transit, bs_out s' = sent i h ++ transit) ->
  key_of (g_iface c) (g_peer c) (keys st) = Some key -> key_of (g_iface c) (g_peer c) k = Some key \/
    exists j c', In c' (calls (ops j)) /\ g_iface c' = g_iface c /\ g_peer c' = g_peer c /\ g_psk c' = key.
Proof.
  intros k fails h st ops i src s rs c v s' key R C T Tc B St (transit & Eo) H.
  destruct (reach utf8 (netlink utf8) nl_conv _ _ _ R) as (l & out & V).
  pose proof (i_llen _ _ _ _ _ _ _ _ V) as Ll. destruct (inv_order _ _ _ _ _ _ _ _ V) as [Sv O].
  assert (Li : forall i, Forall (fun m => length m <= 324) (of_conn i l)).
  { intros j. apply Forall_forall. intros m Hm. apply of_conn_in in Hm. rewrite Forall_forall in Ll. apply (Ll (j, m) Hm). }
  destruct (lift_requests l (fun i cs => Forall good cs /\ sublist cs (calls (ops i)))) as (L & EL & PL).
  { intros j. destruct (Nat.eq_dec j i) as [->|Ne].
    - destruct (C67_call_refuted utf8 _ _ _ _ _ _ _ T Tc B St) as (Es & n & Ln & Eo').
      destruct (puts _ _ _ _ T B) as (cs & later & _ & S0 & G & E & _).
      assert (Gc : good c).
      { destruct (sent_good [BSet c v] s s' [Some (Ok tt)]) as (cs' & E' & G').
        - constructor; [exact Tc|constructor].
        - cbn [bsteps]. rewrite St. reflexivity.
        - rewrite Es in E'. apply app_inv_head in E'. destruct cs' as [|c' [|]]; try discriminate E'. cbn [map] in E'. inversion G'; subst.
          apply wire_good with (c' := c'); [assumption|assumption|congruence]. }
      destruct (O i) as [(rest & Er) _].
      destruct (frames_le (map wire cs) (of_conn i l) (rest ++ transit) (firstn n (frame (wire c)))) as (q & Eq).
      + now apply wires_len.
      + apply Li.
      + rewrite Er, Eo', E, <- app_assoc in Eo. exact Eo.
      + now apply begun_unfinished.
      + destruct (cut_map _ _ _ Eq) as (cs1 & cs2 & -> & E1). exists cs1. split; [exact E1|]. apply Forall_app in G. split; [apply G|].
        eapply sublist_trans; [exact S0|]. apply sublist_prefix.
    - destruct (C j Ne) as (rs' & o & Cj). destruct (client_writes _ _ _ _ _ Cj) as (cs & later & _ & S2 & G & W).
      destruct Cj as (_ & src' & s2 & _ & _ & tr & Eo2). destruct (O j) as [(rest & Er) _].
      destruct (cut_frames cs (of_conn j l) (rest ++ tr ++ later) G (Li j)) as (cs1 & cs2 & -> & E2).
      { rewrite <- W, Eo2, Er, <- !app_assoc. reflexivity. }
      exists cs1. split; [exact E2|]. apply Forall_app in G. split; [apply G|]. eapply sublist_trans; [exact S2|]. apply sublist_prefix. }
  assert (GL : Forall good (map snd L)).
  { apply Forall_forall. intros x Hc. apply in_map_iff in Hc. destruct Hc as ((j, x') & <- & Hc). cbn [snd]. destruct (PL j) as [G _].
    rewrite Forall_forall in G. apply G. now apply of_client_in. }
  unfold keys in H. rewrite (served_asks _ _ _ _ Sv L GL EL) in H.
  destruct (proj1 (all_keys _ _ _ _) key H) as [X|(x & I & X)]; [auto|]. right. apply in_map_iff in I. destruct I as ((j, x') & <- & I).
  exists j, x'. split; [|exact X]. destruct (PL j) as [_ S]. apply sublist_in with (a := of_client j L); [exact S|]. now apply of_client_in.
Qed.
End Through.
Print Assumptions C117_origin.
Print Assumptions C117_order.
Print Assumptions C117_last.
Print Assumptions C117_arrives.
Print Assumptions C117_unpolled_refuted.

(** * An example: a client that hands over two keys for one peer, and one with a key for another *)

Module Example117.
Definition any (_ : bytes) : bool := true.
Definition wg0 : bytes := [x77; x67; x30].
Definition g (peer psk : byte) : bconfig := {| g_iface := wg0; g_peer := repeat peer 32; g_psk := repeat psk 32; g_extra := [] |}.
Definition k0 : kernel := [(wg0, [(repeat x01 32, repeat x00 32); (repeat x02 32, repeat x00 32)])].
Definition sv : send_ev := {| sv_first := [Accept 4000]; sv_flags := true; sv_block := [Accept 4000]; sv_last := [Accept 4000] |}.
Definition ops (i : nat) : list bop :=
  match i with
  | 0 => [BSet (g x01 x07) sv; BPoll [Accept 200] []; BPoll [Accept 4000] []; BSet (g x01 x08) sv; BPoll [Accept 4000] []; BPoll [Accept 4000] []]
  | 1 => [BSet (g x02 x09) sv]
  | _ => []
  end.
Definition does i := bsteps any (ops i) (bstart []).
Definition out i := bs_out (fst (does i)).
Definition st_handle i : list hev := [ETask i 0; ETask i 0; EBroker; EPriv; EBroker; ETask i 0; ETask i 99; ETask i 0].
Definition h : list hev := [EConnect; EConnect; ESend 0 (firstn 400 (out 0)); ESend 1 (out 1)] ++ st_handle 0 ++ [ESend 0 (skipn 400 (out 0)); ETask 1 0] ++ st_handle 0.
Definition st : handler_st (kernel * list bool) := fold_left (hstep any (netlink any) nl_conv) h (hstart (k0, [])).

Fixpoint allowed (st : handler_st (kernel * list bool)) (h : list hev) : bool :=
  match h with
  | [] => true
  | e :: h =>
      match e with ESend i _ => match nth_error (h_conns st) i with Some c => negb (c_eof c) | None => false end | _ => true end &&
      allowed (hstep any (netlink any) nl_conv st e) h
  end.
Lemma allowed_hist h : forall st, allowed st h = true -> hhist any (netlink any) nl_conv st h (fold_left (hstep any (netlink any) nl_conv) h st).
Proof.
  induction h as [|e h IH]; intros st A; cbn [allowed fold_left] in *; [constructor|]. apply andb_true_iff in A. destruct A as [A1 A2].
  constructor; [|apply IH; exact A2]. destruct e; cbn [hcan]; auto. destruct (nth_error (h_conns st) c) as [co|]; [|discriminate].
  exists co. split; [reflexivity|]. now apply negb_true_iff.
Qed.
(** Every task waits for its client, or for the rest of a request. *)
Definition rests (c : conn) : bool := match c_task c with TRead => (negb (N.ltb 324 (le_dec (firstn 8 (c_in c)))) && match accept_request (c_in c) with None => true | _ => false end && negb (c_eof c))%bool | _ => false end.
Definition all_rest (st : handler_st (kernel * list bool)) : bool :=
  match h_stdin st, h_stdout st, h_broker st, h_queue st with [], [], BIdle, [] => forallb rests (h_conns st) | _, _, _, _ => false end.
Lemma all_rest_quiet st : all_rest st = true -> quiet any (netlink any) nl_conv st.
Proof.
  unfold all_rest. destruct (h_stdin st) eqn:Ei; [|discriminate]. destruct (h_stdout st) eqn:Eo; [|discriminate].
  destruct (h_broker st) eqn:Eb; [|discriminate|discriminate]. destruct (h_queue st) eqn:Eq; [|discriminate]. rewrite forallb_forall. intros R3.
  intros e Ie. destruct e as [| | | |i k| | |]; cbn [internal] in Ie; try contradiction; cbn [hstep].
  - destruct (nth_error (h_conns st) i) as [c|] eqn:N; [|reflexivity]. pose proof (R3 c (nth_error_In _ _ N)) as R. unfold rests in R. unfold task_step.
    destruct (c_task c) eqn:T; try discriminate. rewrite !andb_true_iff in R. destruct R as ((R1 & R2) & R4).
    unfold read_request. destruct (accept_request (c_in c)); [discriminate|]. change (N.of_nat REQUEST_MSG_BUFFER_SIZE) with 324%N.
    apply negb_true_iff in R1, R4. rewrite R1, R4, andb_false_r. rewrite set_same by exact N. destruct st; reflexivity.
  - unfold broker_step. rewrite Eb, Eq. reflexivity.
  - unfold priv_go. rewrite Ei. destruct (h_alive st) eqn:A; [|reflexivity]. cbn [accept_request length Nat.ltb Nat.leb andb]. rewrite Eb. reflexivity.
Qed.

Lemma the_client i rs : snd (does i) = rs -> (exists transit, out i = sent i h ++ transit) -> client any h i (ops i) rs (out i).
Proof.
  intros R X. split; [destruct i as [|[|i]]; repeat constructor|]. exists [], (fst (does i)). split; [unfold does in *; rewrite <- R; now destruct (bsteps any (ops i) (bstart []))|].
  split; [reflexivity|exact X].
Qed.
Lemma the_clients : only_clients any h ops.
Proof.
  intros i. exists (snd (does i)), (out i). apply the_client; [reflexivity|]. destruct i as [|[|i]].
  - exists []. vm_compute. reflexivity.
  - exists []. vm_compute. reflexivity.
  - exists []. reflexivity.
Qed.
Lemma the_run : runs any k0 [] h st.
Proof. apply allowed_hist. vm_compute. reflexivity. Qed.

(** The hypotheses of [C117_last] hold, and WireGuard has the second key; the hypotheses of [C117_unpolled_refuted] hold for the second client, and
    WireGuard has no key of it. *)
Example C117_nonvacuous :
  runs any k0 [] h st /\ only_clients any h ops /\ client any h 0 (ops 0) (repeat (Some (Ok tt)) 6) (out 0) /\
  succeeded (ops 0) (repeat (Some (Ok tt)) 6) = calls (ops 0) /\ length (out 0) = 332 * length (calls (ops 0)) /\ sent 0 h = out 0 /\
  quiet any (netlink any) nl_conv st /\ h_alive st = true /\ ~ In (EClose 0) h /\
  (forall j c, j <> 0 -> In c (calls (ops j)) -> for_peer wg0 (repeat x01 32) c = false) /\
  last_for wg0 (repeat x01 32) (calls (ops 0)) = Some (repeat x08 32) /\ key_of wg0 (repeat x01 32) k0 = Some (repeat x00 32) /\
  key_of wg0 (repeat x01 32) (keys st) = Some (repeat x08 32) /\ key_of wg0 (repeat x02 32) (keys st) = Some (repeat x00 32) /\
  snd (does 1) = [Some (Ok tt)] /\ sent 1 h = bs_out (fst (does 1)) /\ length (sent 1 h) = 8.
Proof.
  split; [exact the_run|]. split; [exact the_clients|].
  split; [apply the_client; [vm_compute; reflexivity|exists []; vm_compute; reflexivity]|].
  split; [reflexivity|]. split; [vm_compute; reflexivity|]. split; [vm_compute; reflexivity|].
  split; [apply all_rest_quiet; vm_compute; reflexivity|]. split; [vm_compute; reflexivity|].
  split. { assert (X : existsb (fun e => match e with EClose _ => true | _ => false end) h = false) by (vm_compute; reflexivity).
    intros H. rewrite <- not_true_iff_false in X. apply X. apply existsb_exists. exists (EClose 0). auto. }
  split. { intros [|[|j]] c Nj H; [congruence| |destruct H]. destruct H as [<-|[]]. reflexivity. }
  split; [reflexivity|]. split; [vm_compute; reflexivity|]. split; [vm_compute; reflexivity|]. split; [vm_compute; reflexivity|].
  split; [vm_compute; reflexivity|]. split; vm_compute; reflexivity.
Qed.
End Example117.
