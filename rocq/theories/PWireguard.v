(** C118: when two servers complete an exchange, WireGuard gets the same key at both ends. *)
From Verif Require Import Base ConstTime Prims HashDomains Wire Server Protocol Wp Inv Rules Calls PollRules System
  Trans Spec Transcript Demo PSafety PReplay PPoll PHandshake Builder PBuilder AppNet AppIo PAppIo App PApp PEndToEnd
  Lpe PLpe Broker PBroker Handler PHandler PThrough.
Local Open Scope list_scope.

(** * Specification *)

(** An exchange of two servers, with the hypotheses of C109: [aA] initiates with its peer [pA], and the four datagrams arrive.  [xA] and
    [xB] are the entries of the peers, and [tA] and [tB] what the servers put out in the turns in which the exchange is completed. *)
Definition exchange (P : prims) (aA : app) (pA : nat) (xA : app_peer) (tA : list effect) (aB : app) (pB : nat) (xB : app_peer) (tB : list effect) : Prop :=
  exists uA1 aA1 tA1 sA sA1 so1 to1 m1 uB1 aB1 tB1 sB sB1 so2 to2 m2 aA2 uA2 aA3 sA2 sA3 so3 to3 m3 aB2 uB2 aB3 sB2 so4 to4 m4 aA4 uA3 aA5 tA3 sA4,
  settled P aA /\ settled P aB /\ genuine P sA /\ genuine P sB /\ configured sA pA sB pB /\
  (turns P aA uA1 aA1 tA1 sA (OInitiate pA (u_tx uA1)) /\ In (Sent so1 to1 m1) tA1 /\ a_site aA1 = Product sA1 /\
   sid_unused sA (c_sid (snd (u_call uA1)))) /\
  (turns P aB uB1 aB1 tB1 sB (OMsg m1 (u_tx uB1)) /\ In (Sent so2 to2 m2) tB1 /\ a_site aB1 = Product sB1 /\
   (version sB pB Blake -> forall pid pk psk, ~ hello_authentic P sB Shake m1 pid pk psk)) /\
  (goes_on P aA1 aA2 /\ turns P aA2 uA2 aA3 tA sA2 (OMsg m2 (u_tx uA2)) /\ In (Sent so3 to3 m3) tA /\
   a_site aA3 = Product sA3 /\ still_pending sA1 sA2 pA) /\
  (goes_on P aB1 aB2 /\ turns P aB2 uB2 aB3 tB sB2 (OMsg m3 (u_tx uB2)) /\ In (Sent so4 to4 m4) tB /\
   named_key sB2 (resp_biscuit m2) = named_key sB1 (resp_biscuit m2) /\ (last_used sB2 pB < le_dec (s_bctr sB))%N /\
   (forall q, idx_get (KSid (c_sid (snd (u_call uB1)))) (s_index sB2) = Some q -> q = pB) /\
   idx_get (KKnown (known_hash P sB2 m3)) (s_index sB2) = None /\
   (version sB pB Blake -> forall pt, ~ biscuit_opens P Shake (s_spkm sB2)
      (named_key sB2 (resp_biscuit m2)) (conf_sidi m3) (conf_sidr m3) (resp_biscuit m2) pt)) /\
  (goes_on P aA3 aA4 /\ turns P aA4 uA3 aA5 tA3 sA4 (OMsg m4 (u_tx uA3)) /\ still_pending sA3 sA4 pA /\ same_session sA3 sA4 pA) /\
  nth_error (a_peers aA2) pA = Some xA /\ nth_error (a_peers aB2) pB = Some xB.

(** Peer number [p] of a server is peer [snd (n p)] of the interface [fst (n p)] of WireGuard.  The calls with which the keys in the output [t] of a
    server are handed to its broker number [b]: app_server.rs 445-454. *)
Definition handed (n : nat -> bytes * bytes) (b : nat) (t : list effect) : list bconfig :=
  flat_map (fun e => match e with
                     | SetPsk b' p key => if Nat.eqb b' b then [{| g_iface := fst (n p); g_peer := snd (n p); g_psk := key; g_extra := [] |}] else []
                     | _ => []
                     end) t.
(** The server has put out [t] since WireGuard had the keys [k].  It is the only process that hands over keys for its peers.  Its calls succeeded, it has written
    the requests, nothing is on its way, and the broker, which has now done its work, is in the state [st]. *)
Definition broker_done (utf8 : bytes -> bool) (n : nat -> bytes * bytes) (b : nat) (t : list effect) (k : kernel) (st : handler_st (kernel * list bool)) : Prop :=
  exists h ops i rs out, runs utf8 k [] h st /\ only_clients utf8 h ops /\ client utf8 h i (ops i) rs out /\
    calls (ops i) = handed n b t /\ succeeded (ops i) rs = calls (ops i) /\ length out = 332 * length (calls (ops i)) /\ sent i h = out /\
    quiet utf8 (netlink utf8) nl_conv st /\ h_alive st = true /\ ~ In (EClose i) h /\
    forall j c p, j <> i -> In c (calls (ops j)) -> (g_iface c, g_peer c) <> n p.
(** No further key was put out for the peer of WireGuard that is peer [p]. *)
Definition no_further (n : nat -> bytes * bytes) (b p : nat) (t : list effect) : Prop := forall q key, In (SetPsk b q key) t -> n q <> n p.

(** * C118 *)

Lemma handed_app n b t1 t2 : handed n b (t1 ++ t2) = handed n b t1 ++ handed n b t2.
Proof. unfold handed. apply flat_map_app. Qed.
Lemma last_app iface peer a b : last_for iface peer (a ++ b) = match last_for iface peer b with Some k => Some k | None => last_for iface peer a end.
Proof. unfold last_for at 1. rewrite fold_left_app. fold (last_for iface peer a). apply last_default. Qed.
Lemma last_none iface peer cs : (forall c, In c cs -> for_peer iface peer c = false) -> last_for iface peer cs = None.
Proof.
  unfold last_for. induction cs as [|c cs IH] using rev_ind; intros H; [reflexivity|]. rewrite fold_left_app. cbn [fold_left].
  rewrite (H c) by (apply in_app_iff; right; now left). apply IH. intros c' I. apply H. apply in_app_iff. now left.
Qed.

Lemma one_end utf8 n b p x pid key so to m t1 t2 k st : broker_done utf8 n b (t1 ++ (Sent so to m :: delivery x p pid Exchanged key) ++ t2) k st ->
  ap_broker x = Some b -> no_further n b p t2 -> key_of (fst (n p)) (snd (n p)) k <> None ->
  key_of (fst (n p)) (snd (n p)) (keys st) = Some key.
Proof.
  intros (h & ops & i & rs & out & R & C & Ci & Ec & Su & Len & Se & Q & A & NC & Oth) X NF K.
  apply (C117_last utf8 k h st ops i rs out (fst (n p)) (snd (n p)) key R C Ci Su Len Se Q A NC); [| |exact K].
  - intros j c Ne I. destruct (for_peer (fst (n p)) (snd (n p)) c) eqn:F; [|reflexivity]. exfalso. apply for_peer_spec in F. destruct F as [F1 F2].
    apply (Oth j c p Ne I). rewrite F1, F2. now destruct (n p).
  - rewrite Ec, !handed_app, !last_app. rewrite (last_none _ _ (handed n b t2)).
    + assert (H : handed n b (Sent so to m :: delivery x p pid Exchanged key) = [{| g_iface := fst (n p); g_peer := snd (n p); g_psk := key; g_extra := [] |}]).
      { unfold delivery. rewrite X. destruct (ap_outfile x); unfold handed; cbn [flat_map List.app]; now rewrite Nat.eqb_refl. }
      rewrite H. unfold last_for. cbn [fold_left]. replace (for_peer _ _ _) with true; [reflexivity|]. symmetry. apply for_peer_spec. auto.
    + intros c I. unfold handed in I. apply in_flat_map in I. destruct I as (e & Ie & Ic). destruct e as [| | |b' q key']; try destruct Ic.
      destruct (Nat.eqb_spec b' b) as [->|]; [|destruct Ic]. destruct Ic as [<-|[]]. destruct (for_peer _ _ _) eqn:F; [|reflexivity]. exfalso.
      apply for_peer_spec in F. cbn [g_iface g_peer] in F. destruct F as [F1 F2]. apply (NF q key' Ie). destruct (n q), (n p). cbn [fst snd] in *. congruence.
Qed.

(** Two servers complete an exchange, and each hands its keys to a broker.  Whatever keys they put out before ([fA], [fB]), and afterwards for other peers ([lA],
    [lB]): when the brokers have done their work, WireGuard has the same key for the two peers. *)
Theorem C118_same_psk : forall P aA pA xA tA aB pB xB tB, correct P -> exchange P aA pA xA tA aB pB xB tB ->
  forall utf8A nA bA fA lA kA stA utf8B nB bB fB lB kB stB,
  ap_broker xA = Some bA -> broker_done utf8A nA bA (fA ++ tA ++ lA) kA stA -> no_further nA bA pA lA -> key_of (fst (nA pA)) (snd (nA pA)) kA <> None ->
  ap_broker xB = Some bB -> broker_done utf8B nB bB (fB ++ tB ++ lB) kB stB -> no_further nB bB pB lB -> key_of (fst (nB pB)) (snd (nB pB)) kB <> None ->
  exists key, key_of (fst (nA pA)) (snd (nA pA)) (keys stA) = Some key /\ key_of (fst (nB pB)) (snd (nB pB)) (keys stB) = Some key.
Proof.
  intros P aA pA xA tA aB pB xB tB C X utf8A nA bA fA lA kA stA utf8B nB bB fB lB kB stB HA DA NA KA HB DB NB KB.
  destruct X as (uA1 & aA1 & tA1 & sA & sA1 & so1 & to1 & m1 & uB1 & aB1 & tB1 & sB & sB1 & so2 & to2 & m2 & aA2 & uA2 & aA3 & sA2 & sA3 & so3 & to3 & m3 &
    aB2 & uB2 & aB3 & sB2 & so4 & to4 & m4 & aA4 & uA3 & aA5 & tA3 & sA4 & SA & SB & GA & GB & Cf & (T1 & F1 & Es1 & U1) & (T2 & F2 & Es2 & N2) &
    (G1 & T3 & F3 & Es3 & SP1) & (G2 & T4 & F4 & NK & LU & SI & KH & N4) & (G3 & T5 & SP2 & SS) & XA & XB).
  destruct (C109_same_key_at_both_ends P aA aB pA pB uA1 aA1 tA1 sA sA1 so1 to1 m1 uB1 aB1 tB1 sB sB1 so2 to2 m2
    aA2 uA2 aA3 tA sA2 sA3 so3 to3 m3 aB2 uB2 aB3 tB sB2 so4 to4 m4 aA4 uA3 aA5 tA3 sA4 C SA SB GA GB Cf T1 F1 Es1 U1 T2 F2 Es2 N2 G1 T3 F3 Es3 SP1
    G2 T4 F4 NK LU SI KH N4 G3 T5 SP2 SS)
    as (k & xA' & xB' & v & from1 & from2 & from3 & from4 & so1' & so2' & so3' & so4' & XA' & XB' & _ & _ & _ & EA & _ & EB & _).
  assert (xA' = xA) as -> by congruence. assert (xB' = xB) as -> by congruence. exists k. rewrite EA in DA. rewrite EB in DB.
  split; eapply one_end; eauto.
Qed.
Print Assumptions C118_same_psk.

(** * The exchange of the demonstration servers, both with a broker *)

Module Both.
Import Demo.
Definition dA : turn := mkturn (secs 1) xaa false [] App.RNothing true.
Definition dB : turn := mkturn (secs 2) xbb false [] (RDatagram m1 0 hostY) true.
Definition dA2 : turn := mkturn (secs 1 + 100000) xcc false [] (RDatagram m2 0 hostX) true.
Definition dB2 : turn := mkturn (secs 4) xdd false [] (RDatagram m3 0 hostY) true.
Definition dA3 : turn := mkturn (secs 1 + 200000) xee false [] (RDatagram m4 0 hostX) true.
Definition runA := sim [XTurn (secs 0 + 100) xab false [IBroker 6 true] App.RNothing true; XAdd PBuilder.pB None (Some 0) (Some [hostX])] newA.
Definition runB := sim [XTurn (secs 1) xab false [IBroker 5 true] App.RNothing true; XAdd PApp.pA (Some 8) (Some 0) None; XTurn (secs 1) xac false [] App.RNothing true] newB.
Definition a0 := Eval vm_compute in end_of runA.
Definition b0 := Eval vm_compute in end_of runB.
Definition after (u : turn) (a : App.app) := fst (fst (fst (app_turn P u a))).
Definition effs (u : turn) (a : App.app) := snd (fst (app_turn P u a)).
Definition mid (u : turn) (a : App.app) : srv := match a_site a with Product s => fst (exec P (poll_call u) s) | _ => A0 end.
Definition a1 := Eval vm_compute in after dA a0.
Definition b1 := Eval vm_compute in after dB b0.
Definition a2 := Eval vm_compute in after dA2 a1.
Definition b2 := Eval vm_compute in after dB2 b1.
Definition a3 := Eval vm_compute in after dA3 a2.
Definition sA := Eval vm_compute in mid dA a0.
Definition sA1 := Eval vm_compute in engine_of a1.
Definition sB := Eval vm_compute in mid dB b0.
Definition sB1 := Eval vm_compute in engine_of b1.
Definition sA2 := Eval vm_compute in mid dA2 a1.
Definition sA3 := Eval vm_compute in engine_of a2.
Definition sB2 := Eval vm_compute in mid dB2 b1.
Definition sA4 := Eval vm_compute in mid dA3 a2.
Definition t1 := Eval vm_compute in effs dA a0.
Definition t2 := Eval vm_compute in effs dB b0.
Definition t3 := Eval vm_compute in effs dA2 a1.
Definition t4 := Eval vm_compute in effs dB2 b1.
Definition key := Eval vm_compute in match t3 with [_; SetPsk _ _ k] => k | _ => [] end.
Lemma a0_settled : settled P a0.
Proof. eapply (end_settled _ _ _ _ runA); [reflexivity|vm_compute; reflexivity]. Qed.
Lemma b0_settled : settled P b0.
Proof. eapply (end_settled _ _ _ _ runB); [reflexivity|vm_compute; reflexivity]. Qed.

(** A machine: the broker of a server that has handed over one key *)
Definition any (_ : bytes) : bool := true.
Definition wg0 : bytes := [x77; x67; x30].
Definition names (peer : byte) (p : nat) : bytes * bytes := (wg0, if Nat.eqb p 0 then repeat peer 32 else []).
Definition kernel0 (peer : byte) : kernel := [(wg0, [(repeat x05 32, repeat x06 32); (repeat peer 32, repeat x00 32)])].
Definition ops (peer : byte) (i : nat) : list bop :=
  if Nat.eqb i 0 then [BSet {| g_iface := wg0; g_peer := repeat peer 32; g_psk := key; g_extra := [] |} Example117.sv; BPoll [Accept 4000] []; BPoll [Accept 4000] []] else [].
Definition out (peer : byte) : bytes := Eval vm_compute in bs_out (fst (bsteps any (ops peer 0) (bstart []))).
Definition hist (peer : byte) : list hev := [EConnect; ESend 0 (out peer)] ++ Example117.st_handle 0.
Definition st (peer : byte) : handler_st (kernel * list bool) := fold_left (hstep any (netlink any) nl_conv) (hist peer) (hstart (kernel0 peer, [])).

Lemma done peer t : (peer = x01 \/ peer = x02) -> handed (names peer) 0 t = calls (ops peer 0) ->
  broker_done any (names peer) 0 t (kernel0 peer) (st peer).
Proof.
  intros Hp Ht. exists (hist peer), (ops peer), 0, (repeat (Some (Ok tt)) 3), (out peer).
  assert (Ci : client any (hist peer) 0 (ops peer 0) (repeat (Some (Ok tt)) 3) (out peer)).
  { split; [repeat constructor|]. exists [], (fst (bsteps any (ops peer 0) (bstart []))). split; [destruct Hp as [-> | ->]; vm_compute; reflexivity|].
    split; [destruct Hp as [-> | ->]; vm_compute; reflexivity|]. exists []. destruct Hp as [-> | ->]; vm_compute; reflexivity. }
  split; [apply Example117.allowed_hist; destruct Hp as [-> | ->]; vm_compute; reflexivity|].
  split.
  { intros [|i]; [eauto|]. exists [], []. split; [constructor|]. exists [], (bstart []). split; [reflexivity|]. split; [reflexivity|]. exists []. reflexivity. }
  split; [exact Ci|]. split; [now symmetry|]. split; [reflexivity|].
  split; [destruct Hp as [-> | ->]; vm_compute; reflexivity|]. split; [destruct Hp as [-> | ->]; vm_compute; reflexivity|].
  split; [apply Example117.all_rest_quiet; destruct Hp as [-> | ->]; vm_compute; reflexivity|]. split; [destruct Hp as [-> | ->]; vm_compute; reflexivity|].
  split.
  { unfold hist. cbn [List.app Example117.st_handle]. intros H. repeat (destruct H as [H|H]; [discriminate|]). destruct H. }
  intros [|j] c p Nj I; [congruence|destruct I].
Qed.
End Both.
Ltac both_turn := apply Ends.turns_demo; [vm_compute; repeat constructor
  |eexists _, _; split; [reflexivity|vm_compute; reflexivity]
  |eexists _, _; split; [vm_compute; reflexivity|reflexivity]].

(** The hypotheses of [C118_same_psk] hold, and WireGuard has the key of the exchange for peer 2 at A and for peer 1 at B. *)
Example C118_nonvacuous : exists xA xB,
  exchange Demo.P Both.a0 0 xA Both.t3 Both.b0 0 xB Both.t4 /\ ap_broker xA = Some 0 /\ ap_broker xB = Some 0 /\
  broker_done Both.any (Both.names x02) 0 ([] ++ Both.t3 ++ []) (Both.kernel0 x02) (Both.st x02) /\
  broker_done Both.any (Both.names x01) 0 ([] ++ Both.t4 ++ []) (Both.kernel0 x01) (Both.st x01) /\
  key_of Both.wg0 (repeat x02 32) (Both.kernel0 x02) = Some (repeat x00 32) /\ key_of Both.wg0 (repeat x01 32) (Both.kernel0 x01) = Some (repeat x00 32) /\
  key_of Both.wg0 (repeat x02 32) (keys (Both.st x02)) = Some Both.key /\ key_of Both.wg0 (repeat x01 32) (keys (Both.st x01)) = Some Both.key /\
  length Both.key = 32 /\ Both.key <> repeat x00 32.
Proof.
  eexists _, _. split.
  { exists Both.dA, Both.a1, Both.t1, Both.sA, Both.sA1, 0, hostX, Demo.m1, Both.dB, Both.b1, Both.t2, Both.sB, Both.sB1, 0, hostY, Demo.m2,
      Both.a1, Both.dA2, Both.a2, Both.sA2, Both.sA3, 0, hostX, Demo.m3, Both.b1, Both.dB2, Both.b2, Both.sB2, 0, hostY, Demo.m4, Both.a2, Both.dA3, Both.a3, [], Both.sA4.
    assert (NV : ~ version Both.sB 0 Blake). { intros (x & E & A). vm_compute in E. injection E as <-. discriminate. }
    split; [exact Both.a0_settled|]. split; [exact Both.b0_settled|]. split; [vm_compute; reflexivity|]. split; [vm_compute; reflexivity|].
    split. { eexists _, _. split; [reflexivity|]. split; [reflexivity|]. repeat split; vm_compute; reflexivity. }
    split. { split; [both_turn|]. split; [left; reflexivity|]. split; [reflexivity|]. split; [vm_compute; reflexivity|]. intros [|p] x E; [|destruct p; discriminate].
      injection E as <-. split; discriminate. }
    split. { split; [both_turn|]. split; [left; reflexivity|]. split; [reflexivity|]. intros V. now destruct NV. }
    split. { split; [apply Ends.goes_on_refl|]. split; [both_turn|]. split; [left; reflexivity|]. split; [reflexivity|].
      eexists _, _, _, _. repeat (split; [reflexivity|]). vm_compute. reflexivity. }
    split. { split; [apply Ends.goes_on_refl|]. split; [both_turn|]. split; [left; reflexivity|]. split; [vm_compute; reflexivity|]. split; [vm_compute; reflexivity|].
      split; [intros q E; vm_compute in E; discriminate|]. split; [vm_compute; reflexivity|]. intros V. now destruct NV. }
    split. { split; [apply Ends.goes_on_refl|]. split; [both_turn|]. split; [eexists _, _, _, _; repeat (split; [reflexivity|]); vm_compute; reflexivity|]. reflexivity. }
    split; reflexivity. }
  split; [reflexivity|]. split; [reflexivity|].
  split; [apply Both.done; [auto|vm_compute; reflexivity]|]. split; [apply Both.done; [auto|vm_compute; reflexivity]|].
  split; [vm_compute; reflexivity|]. split; [vm_compute; reflexivity|]. split; [vm_compute; reflexivity|]. split; [vm_compute; reflexivity|].
  split; [reflexivity|]. vm_compute. discriminate.
Qed.
