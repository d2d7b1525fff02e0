(** C27, C28: identifying and discovering remote endpoints. *)
From Verif Require Import Base AppNet.

(** * C27 *)

(** Addresses as the operating system can report them. *)
Definition wf_addr (a : sockaddr) : Prop :=
  match a with
  | V4 ip port => length ip = 4 /\ (port < 65536)%N
  | V6 ip port flow scope => length ip = 16 /\ (port < 65536)%N /\ (flow < 2 ^ 32)%N /\ (scope < 2 ^ 32)%N
  end.

(** What an endpoint identifier has to tell: the address as an IPv6 address (RFC 4291,
    2.5.5.2 for IPv4), the port and the scope. *)
Definition addr16 (a : sockaddr) : bytes :=
  match a with
  | V4 ip _ => [x00; x00; x00; x00; x00; x00; x00; x00; x00; x00; xff; xff] ++ ip
  | V6 ip _ _ _ => ip
  end.
Definition port_of (a : sockaddr) : N := match a with V4 _ p => p | V6 _ p _ _ => p end.
Definition scope_of (a : sockaddr) : N := match a with V4 _ _ => 0 | V6 _ _ _ s => s end.

Lemma endpoint_bytes_eq s a :
  endpoint_bytes s a = be_enc 8 s ++ addr16 a ++ be_enc 2 (port_of a) ++ be_enc 4 (scope_of a).
Proof. destruct a; reflexivity. Qed.

Lemma addr16_length a : wf_addr a -> length (addr16 a) = 16.
Proof. destruct a as [ip p|ip p f s]; cbn; intros (H & _); lia. Qed.

Lemma app_inv_length {A} (a b c d : list A) : length a = length b -> a ++ c = b ++ d -> a = b /\ c = d.
Proof.
  revert b. induction a as [|x a IH]; intros [|y b] L E; try discriminate; [auto|].
  injection E as -> E. injection L as L. destruct (IH b L E) as [-> ->]. auto.
Qed.

Lemma be_enc_inj len m n : (m < pow256 len)%N -> (n < pow256 len)%N -> be_enc len m = be_enc len n -> m = n.
Proof.
  intros Hm Hn E. apply (f_equal be_dec) in E. rewrite !be_dec_enc in E.
  now rewrite !N.mod_small in E.
Qed.

Theorem C27_length : forall s a, wf_addr a -> length (endpoint_bytes s a) = 30.
Proof.
  intros s a W. rewrite endpoint_bytes_eq, !app_length, !be_enc_length, (addr16_length a W). reflexivity.
Qed.
Print Assumptions C27_length.

Theorem C27_separates : forall s a t b,
  wf_addr a -> wf_addr b -> (s < 2 ^ 64)%N -> (t < 2 ^ 64)%N ->
  (endpoint_bytes s a = endpoint_bytes t b <->
   s = t /\ addr16 a = addr16 b /\ port_of a = port_of b /\ scope_of a = scope_of b).
Proof.
  intros s a t b Wa Wb Hs Ht. rewrite !endpoint_bytes_eq. split.
  - intros E. apply app_inv_length in E; [|now rewrite !be_enc_length]. destruct E as [E1 E].
    apply app_inv_length in E; [|now rewrite !addr16_length]. destruct E as [E2 E].
    apply app_inv_length in E; [|now rewrite !be_enc_length]. destruct E as [E3 E4].
    apply be_enc_inj in E1; [|exact Hs|exact Ht].
    apply be_enc_inj in E3; [|destruct a; cbn in *; change (pow256 2) with 65536%N; tauto
                             |destruct b; cbn in *; change (pow256 2) with 65536%N; tauto].
    apply be_enc_inj in E4; [|destruct a; cbn [scope_of wf_addr] in *; change (pow256 4) with (2^32)%N; [reflexivity|tauto]
                             |destruct b; cbn [scope_of wf_addr] in *; change (pow256 4) with (2^32)%N; [reflexivity|tauto]].
    auto.
  - intros (-> & -> & -> & ->). reflexivity.
Qed.
Print Assumptions C27_separates.

(** Non-vacuity: two ports of one host are told apart; an IPv4 address and its mapped form are not. *)
Example C27_nonvacuous :
  let lo := [x7f; x00; x00; x01] in
  wf_addr (V4 lo 9999) /\
  endpoint_bytes 0 (V4 lo 9999) <> endpoint_bytes 0 (V4 lo 9998) /\
  endpoint_bytes 0 (V4 lo 9999) <> endpoint_bytes 1 (V4 lo 9999) /\
  endpoint_bytes 0 (V4 lo 9999) = endpoint_bytes 0 (V6 (to_ipv6_mapped lo) 9999 0 0).
Proof.
  cbv zeta. split; [split; reflexivity|]. split; [vm_compute; discriminate|].
  split; [vm_compute; discriminate|vm_compute; reflexivity].
Qed.

(** * C28: merging *)

(** [a] occurs in [l], first at position [n]. *)
Definition first_at (l : list sockaddr) (a : sockaddr) (n : nat) : Prop :=
  nth_error l n = Some a /\ forall k, k < n -> nth_error l k <> Some a.

Lemma sockaddr_eqb_eq a b : sockaddr_eqb a b = true <-> a = b.
Proof.
  destruct a, b; cbn [sockaddr_eqb]; rewrite ?andb_true_iff, ?bytes_eqb_eq, ?N.eqb_eq;
    (split; [intros H; decompose [and] H; congruence || discriminate|now intros [=]]).
Qed.

Lemma existsb_In a l : existsb (sockaddr_eqb a) l = true <-> In a l.
Proof.
  rewrite existsb_exists. split.
  - intros (x & H & E). apply sockaddr_eqb_eq in E. now subst.
  - intros H. exists a. split; [exact H|now apply sockaddr_eqb_eq].
Qed.

(** The invariant of the loop, [done] being the addresses already looked at. *)
Record merged (src res : list sockaddr) : Prop := {
  mg_nodup : NoDup res;
  mg_in : forall a, In a res <-> In a src;
  mg_order : forall i j a b, nth_error res i = Some a -> nth_error res j = Some b -> i < j ->
    exists m n, first_at src a m /\ first_at src b n /\ m < n
}.

Lemma first_at_app l a n x : first_at l a n -> first_at (l ++ x) a n.
Proof.
  intros [H K]. assert (n < length l) as L by (apply nth_error_Some; congruence).
  split; [now rewrite nth_error_app1|]. intros k Hk. rewrite nth_error_app1 by lia. now apply K.
Qed.

Lemma first_at_ex l a : In a l -> exists n, first_at l a n.
Proof.
  induction l as [|x l IH]; [intros []|]. intros H.
  destruct (sockaddr_eqb x a) eqn:E.
  - apply sockaddr_eqb_eq in E. subst. exists 0. split; [reflexivity|]. intros k Hk. lia.
  - destruct H as [->|H].
    { assert (sockaddr_eqb a a = true) by now apply sockaddr_eqb_eq. congruence. }
    destruct (IH H) as (n & A & B). exists (S n). split; [exact A|].
    intros [|k] Hk; cbn; [|apply B; lia]. intros [= ->].
    assert (sockaddr_eqb a a = true) by now apply sockaddr_eqb_eq. congruence.
Qed.

Lemma nodup_snoc {A} (l : list A) x : NoDup l -> ~ In x l -> NoDup (l ++ [x]).
Proof.
  induction l as [|y l IH]; intros N H; cbn [app]; [now constructor|].
  inversion N as [|? ? N1 N2]; subst. cbn [In] in H. constructor.
  - rewrite in_app_iff. cbn [In]. intros [E|[E|[]]]; [easy|]. subst. tauto.
  - apply IH; tauto.
Qed.

Lemma dedup_spec l : forall done seen acc,
  merged done acc -> (forall a, In a seen <-> In a acc) -> merged (done ++ l) (dedup l seen acc).
Proof.
  induction l as [|x l IH]; intros done seen acc M S; cbn [dedup].
  { now rewrite app_nil_r. }
  replace (done ++ x :: l) with ((done ++ [x]) ++ l) by now rewrite <- app_assoc.
  destruct (existsb (sockaddr_eqb x) seen) eqn:E.
  - apply existsb_In in E. apply IH; [|exact S]. destruct M as [M1 M2 M3]. split; [exact M1| |].
    + intros a. rewrite M2, in_app_iff. cbn [In]. split; [tauto|]. intros [H|[<-|[]]]; [exact H|].
      now apply M2, S.
    + intros i j a b Ha Hb Hij. destruct (M3 i j a b Ha Hb Hij) as (m & n & Fm & Fn & L).
      exists m, n. split; [now apply first_at_app|]. split; [now apply first_at_app|exact L].
  - assert (~ In x acc) as Nx.
    { intros H. apply S in H. apply existsb_In in H. congruence. }
    assert (~ In x done) as Nd by (intros H; apply Nx; now apply (mg_in _ _ M)).
    assert (first_at (done ++ [x]) x (length done)) as Fx.
    { split; [rewrite nth_error_app2, Nat.sub_diag by lia; reflexivity|].
      intros k Hk. rewrite nth_error_app1 by lia. intros H. apply Nd. eapply nth_error_In; eauto. }
    apply IH.
    + destruct M as [M1 M2 M3]. split.
      * now apply nodup_snoc.
      * intros a. rewrite !in_app_iff, M2. tauto.
      * intros i j a b Ha Hb Hij.
        assert (j < length (acc ++ [x])) as Lj by (apply nth_error_Some; congruence).
        rewrite app_length in Lj. cbn in Lj. rewrite nth_error_app1 in Ha by lia.
        destruct (Nat.eq_dec j (length acc)) as [->|Nj].
        -- rewrite nth_error_app2, Nat.sub_diag in Hb by lia. injection Hb as <-.
           assert (In a done) as Ia by (apply M2; eapply nth_error_In; eauto).
           destruct (first_at_ex _ _ Ia) as (m & Fm). exists m, (length done).
           split; [now apply first_at_app|]. split; [exact Fx|].
           apply nth_error_Some. destruct Fm as [Fm _]. congruence.
        -- rewrite nth_error_app1 in Hb by lia.
           destruct (M3 i j a b Ha Hb Hij) as (m & n & Fm & Fn & L).
           exists m, n. split; [now apply first_at_app|]. split; [now apply first_at_app|exact L].
    + intros a. cbn [In]. rewrite in_app_iff. cbn [In]. rewrite S. tauto.
Qed.

Definition known (e : option endpoint) : list sockaddr :=
  match e with Some e => addresses e | None => [] end.

(** Merging two sources: each address of either once, in the order of first appearance, and
    discovery starts afresh. *)
Theorem C28_merge : forall a b,
  match discovery_from_multiple_sources a b with
  | None => a = None /\ b = None
  | Some e => (a <> None \/ b <> None) /\ exists l, e = Discovery (0, 0) l /\ NoDup l /\
      (forall x, In x l <-> In x (known a) \/ In x (known b)) /\
      (forall i j x y, nth_error l i = Some x -> nth_error l j = Some y -> i < j ->
         exists m n, first_at (known a ++ known b) x m /\ first_at (known a ++ known b) y n /\ m < n)
  end.
Proof.
  assert (forall l, merged l (dedup l [] [])) as D.
  { intros l. apply (dedup_spec l [] [] []); [|tauto]. split; [constructor|tauto|].
    intros [|i] j a b H; discriminate. }
  intros a b. unfold discovery_from_multiple_sources, discovery_from_addresses.
  destruct a as [a|], b as [b|]; cbn [known]; rewrite ?app_nil_r; cbn [app]; auto;
    (split; [first [now left|now right]|]); eexists; (split; [reflexivity|]);
    match goal with |- NoDup (dedup ?l _ _) /\ _ => destruct (D l) as [M1 M2 M3] end;
    (split; [exact M1|]; split; [intros x; rewrite M2, ?in_app_iff; cbn [In]; tauto|exact M3]).
Qed.
Print Assumptions C28_merge.

Example C28_merge_nonvacuous :
  let a p := V4 [x7f; x00; x00; x01] p in
  discovery_from_multiple_sources (Some (Bound 3 (a 5%N))) (Some (Discovery (1, 1) [a 4%N; a 5%N; a 4%N; a 6%N]))
  = Some (Discovery (0, 0) [a 5%N; a 4%N; a 6%N]).
Proof. reflexivity. Qed.

(** * C28: scouting *)

(** That every pair of socket and address is reached is false in two ways.

    First, if every packet is accepted by the system, both numbers advance in step: with two
    sockets and two addresses, address 0 is never tried on socket 1. *)
Theorem C28_pairs_refuted : exists n m a s, a < n /\ s < m /\
  forall k t b, In (t, b) (snd (send_many (repeat (fun _ _ => true) k) n m (0, 0))) -> ~ In (a, s) t.
Proof.
  exists 2, 2, 0, 1. split; [lia|]. split; [lia|].
  assert (forall k, (forall t b, In (t, b) (snd (send_many (repeat (fun _ _ => true) k) 2 2 (0, 0))) -> ~ In (0, 1) t) /\
                    (forall t b, In (t, b) (snd (send_many (repeat (fun _ _ => true) k) 2 2 (1, 1))) -> ~ In (0, 1) t)) as G.
  { induction k as [|k [I1 I2]]; [split; intros t b []|]. cbn [repeat send_many].
    change (send_scouting (fun _ _ => true) 2 2 (0, 0)) with ((1, 1), [(0, 0)], true).
    change (send_scouting (fun _ _ => true) 2 2 (1, 1)) with ((0, 0), [(1, 1)], true).
    cbv iota beta.
    destruct (send_many _ 2 2 (1, 1)) as [s1 h1]. destruct (send_many _ 2 2 (0, 0)) as [s0 h0].
    cbn [snd In] in *. split; intros t b [[= <- <-]|H]; eauto; intros [|[]]; discriminate. }
  intros k. apply G.
Qed.
Print Assumptions C28_pairs_refuted.

(** Second, the iterator over the sockets is used up by the first address.  A host with an
    IPv4 and an IPv6 socket whose peer has an address of each kind, but without IPv6
    connectivity, never sends anything, although the second address would work. *)
Theorem C28_unreachable_refuted : exists (ok : nat -> nat -> bool) n m a s,
  a < n /\ s < m /\ ok a s = true /\
  forall k, let h := snd (send_many (repeat ok k) n m (0, 0)) in
    length h = k /\ forall t b, In (t, b) h -> b = false /\ ~ exists s', In (a, s') t.
Proof.
  (* address 0: IPv6, unreachable; address 1: IPv4, reachable through socket 1 *)
  exists (fun a s => Nat.eqb a 1 && Nat.eqb s 1), 2, 2, 1, 1.
  split; [lia|]. split; [lia|]. split; [reflexivity|]. intros k. cbv zeta. split.
  - induction k as [|k IH]; [reflexivity|]. cbn [repeat send_many].
    change (send_scouting (fun a s => Nat.eqb a 1 && Nat.eqb s 1) 2 2 (0, 0)) with ((0, 0), [(0, 0); (0, 1)], false).
    cbv iota beta. destruct (send_many _ 2 2 (0, 0)) as [s0 h0]. cbn [snd length] in *. now rewrite IH.
  - intros t b. induction k as [|k IH]; [intros []|]. cbn [repeat send_many].
    change (send_scouting (fun a s => Nat.eqb a 1 && Nat.eqb s 1) 2 2 (0, 0)) with ((0, 0), [(0, 0); (0, 1)], false).
    cbv iota beta. destruct (send_many _ 2 2 (0, 0)) as [s0 h0]. cbn [snd] in *.
    intros [[= <- <-]|H]; [|now apply IH]. split; [reflexivity|]. intros (s' & [E|[E|[]]]); discriminate.
Qed.
Print Assumptions C28_unreachable_refuted.

(** ** What does hold *)

Lemma try_sockets_spec ok a socks t r rest :
  try_sockets ok a socks = (t, r, rest) ->
  match r with
  | Some s => exists l, socks = l ++ s :: rest /\ t = map (pair a) (l ++ [s]) /\ ok a s = true /\
                (forall s', In s' l -> ok a s' = false)
  | None => t = map (pair a) socks /\ rest = [] /\ (forall s', In s' socks -> ok a s' = false)
  end.
Proof.
  revert t r rest. induction socks as [|s l IH]; intros t r rest; cbn [try_sockets].
  - intros [= <- <- <-]. repeat split. intros s' [].
  - destruct (ok a s) eqn:E.
    + intros [= <- <- <-]. exists []. repeat split; auto. intros s' [].
    + destruct (try_sockets ok a l) as [[t1 r1] rest1] eqn:T. intros [= <- <- <-].
      specialize (IH _ _ _ eq_refl). destruct r1 as [s1|].
      * destruct IH as (l1 & -> & -> & O & N). exists (s :: l1). repeat split; auto.
        intros s' [<-|H]; auto.
      * destruct IH as (-> & -> & N). repeat split. intros s' [<-|H]; auto.
Qed.

Lemma try_addrs_nil ok addrs : try_addrs ok addrs [] = ([], None).
Proof. induction addrs as [|a l IH]; [reflexivity|]. cbn. now rewrite IH. Qed.

Lemma cycle_cons off n : cycle_from off (S n) = (off mod S n) :: map (fun i => (off + i) mod S n) (seq 1 n).
Proof. unfold cycle_from. cbn [seq map]. now rewrite Nat.add_0_r. Qed.

Lemma cycle_In off n x : In x (cycle_from off n) <-> x < n.
Proof.
  unfold cycle_from. rewrite in_map_iff. split.
  - intros (i & <- & Hi). apply in_seq in Hi. apply Nat.mod_upper_bound. lia.
  - intros H. exists ((x + (n - off mod n)) mod n). split.
    + rewrite Nat.add_mod_idemp_r by lia.
      rewrite (Nat.div_mod off n) at 1 by lia.
      replace (n * (off / n) + off mod n + (x + (n - off mod n))) with (x + (off / n + 1) * n).
      2:{ pose proof (Nat.mod_upper_bound off n ltac:(lia)). nia. }
      rewrite Nat.mod_add by lia. apply Nat.mod_small; lia.
    + apply in_seq. pose proof (Nat.mod_upper_bound (x + (n - off mod n)) n ltac:(lia)). lia.
Qed.

(** A call tries the address whose turn it is on every socket until one accepts; then the turn
    passes to the next address and the next socket.  It sends at most one packet. *)
Theorem C28_scouting_partial : forall ok n m a0 s0 st t b,
  0 < n -> 0 < m -> send_scouting ok n m (a0, s0) = (st, t, b) ->
  (forall x, In x t -> fst x = a0 mod n /\ snd x < m) /\
  (b = true <-> exists s, s < m /\ ok (a0 mod n) s = true) /\
  (b = true -> exists before s, t = before ++ [(a0 mod n, s)] /\ ok (a0 mod n) s = true /\
     (forall x, In x before -> ok (fst x) (snd x) = false) /\
     st = ((a0 mod n + 1) mod n, (s + 1) mod m)) /\
  (b = false -> st = (a0, s0) /\ forall s, s < m -> In (a0 mod n, s) t).
Proof.
  intros ok n m a0 s0 st t b Hn Hm E. unfold send_scouting in E. cbn [fst snd] in E.
  destruct n as [|n]; [lia|]. rewrite cycle_cons in E. cbn [try_addrs] in E.
  destruct (try_sockets ok (a0 mod S n) (cycle_from s0 m)) as [[t1 r1] rest] eqn:T.
  apply try_sockets_spec in T. destruct r1 as [s|].
  - destruct T as (l & El & -> & O & N). injection E as <- <- <-.
    assert (forall x, In x (l ++ [s]) -> x < m) as B.
    { intros x Hx. apply (cycle_In s0 m). rewrite El. apply in_app_iff.
      apply in_app_iff in Hx. destruct Hx as [Hx|[<-|[]]]; [now left|right; now left]. }
    split; [|split; [|split]].
    + intros x Hx. apply in_map_iff in Hx. destruct Hx as (y & <- & Hy). cbn. auto.
    + split; [|reflexivity]. intros _. exists s. split; [|exact O]. apply B, in_app_iff. right. now left.
    + intros _. exists (map (pair (a0 mod S n)) l), s. split; [now rewrite map_app|]. split; [exact O|].
      split; [|reflexivity]. intros x Hx. apply in_map_iff in Hx. destruct Hx as (y & <- & Hy). now apply N.
    + discriminate.
  - destruct T as (-> & -> & N). rewrite try_addrs_nil in E. injection E as <- <- <-.
    rewrite app_nil_r. split; [|split; [|split]].
    + intros x Hx. apply in_map_iff in Hx. destruct Hx as (y & <- & Hy). apply cycle_In in Hy. cbn. auto.
    + split; [discriminate|]. intros (s & Hs & O). rewrite N in O; [discriminate|]. now apply cycle_In.
    + discriminate.
    + intros _. split; [reflexivity|]. intros s Hs. apply in_map, cycle_In, Hs.
Qed.
Print Assumptions C28_scouting_partial.

(** If the system accepts every packet, message number [k] goes to address [k mod n] through
    socket [k mod m]. *)
Lemma scouting_all n m a s : 0 < n -> 0 < m ->
  send_scouting (fun _ _ => true) n m (a, s) = (((a mod n + 1) mod n, (s mod m + 1) mod m), [(a mod n, s mod m)], true).
Proof.
  intros Hn Hm. unfold send_scouting. cbn [fst snd]. destruct n as [|n]; [lia|]. destruct m as [|m]; [lia|].
  rewrite !cycle_cons. reflexivity.
Qed.

Theorem C28_order_partial : forall n m k i, 0 < n -> 0 < m -> i < k ->
  nth_error (snd (send_many (repeat (fun _ _ => true) k) n m (0, 0))) i = Some ([(i mod n, i mod m)], true).
Proof.
  intros n m k i Hn Hm Hi.
  assert (forall k o i, i < k ->
    nth_error (snd (send_many (repeat (fun _ _ => true) k) n m (o mod n, o mod m))) i
    = Some ([((o + i) mod n, (o + i) mod m)], true)) as G.
  { clear k i Hi. induction k as [|k IH]; intros o i Hi; [lia|]. cbn [repeat send_many].
    rewrite scouting_all by assumption. rewrite !Nat.mod_mod by lia.
    rewrite !Nat.add_mod_idemp_l by lia.
    specialize (IH (o + 1)). destruct (send_many _ n m _) as [s1 h1]. cbn [snd] in *.
    destruct i as [|i]; [cbn; now rewrite Nat.add_0_r|]. cbn [nth_error].
    replace (o + S i) with (o + 1 + i) by lia. apply IH. lia. }
  specialize (G k 0 i Hi). now rewrite !Nat.mod_0_l in G by lia.
Qed.
Print Assumptions C28_order_partial.

Lemma crt n m a s : 0 < n -> 0 < m -> Nat.gcd n m = 1 -> a < n -> s < m ->
  exists i, i < n * m /\ i mod n = a /\ i mod m = s.
Proof.
  intros Hn Hm G Ha Hs.
  destruct (Nat.gcd_bezout_pos n m Hn) as (u0 & v0 & B0). rewrite G in B0.
  pose (u := Z.of_nat u0). pose (v := (- Z.of_nat v0)%Z).
  assert (u * Z.of_nat n + v * Z.of_nat m = 1)%Z as B by (unfold u, v; nia).
  clearbody u v. clear u0 v0 B0.
  pose (z := ((Z.of_nat a * v * Z.of_nat m + Z.of_nat s * u * Z.of_nat n) mod (Z.of_nat n * Z.of_nat m))%Z).
  assert (0 <= z < Z.of_nat n * Z.of_nat m)%Z as Bz by (apply Z.mod_pos_bound; nia).
  exists (Z.to_nat z). split; [nia|].
  split.
  - apply Nat2Z.inj. rewrite Nat2Z.inj_mod, Z2Nat.id by lia. unfold z.
    rewrite Z.rem_mul_r by lia. rewrite (Z.mul_comm (Z.of_nat n)), Z.mod_add by lia.
    rewrite Z.mod_mod by lia. rewrite Z.mod_add by lia.
    replace (Z.of_nat a * v * Z.of_nat m)%Z with (Z.of_nat a + (- (Z.of_nat a * u)) * Z.of_nat n)%Z.
    + rewrite Z.mod_add by lia. apply Z.mod_small. lia.
    + nia.
  - apply Nat2Z.inj. rewrite Nat2Z.inj_mod, Z2Nat.id by lia. unfold z.
    rewrite (Z.mul_comm (Z.of_nat n) (Z.of_nat m)).
    rewrite Z.rem_mul_r by lia. rewrite (Z.mul_comm (Z.of_nat m) (_ mod _)), Z.mod_add by lia.
    rewrite Z.mod_mod by lia. rewrite Z.add_comm, Z.mod_add by lia.
    replace (Z.of_nat s * u * Z.of_nat n)%Z with (Z.of_nat s + (- (Z.of_nat s * v)) * Z.of_nat m)%Z.
    + rewrite Z.mod_add by lia. apply Z.mod_small. lia.
    + nia.
Qed.

(** So every address and every socket has its turn, and every pair does if the two numbers
    have no common divisor. *)
Theorem C28_coprime_partial : forall n m a s, 0 < n -> 0 < m -> Nat.gcd n m = 1 -> a < n -> s < m ->
  exists i, i < n * m /\ forall k, i < k ->
    nth_error (snd (send_many (repeat (fun _ _ => true) k) n m (0, 0))) i = Some ([(a, s)], true).
Proof.
  intros n m a s Hn Hm G Ha Hs. destruct (crt n m a s Hn Hm G Ha Hs) as (i & L & <- & <-).
  exists i. split; [exact L|]. intros k Hk. now apply C28_order_partial.
Qed.
Print Assumptions C28_coprime_partial.
