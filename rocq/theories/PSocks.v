(** C112: descriptors are taken only for what they are. *)
From Verif Require Import Base Api AppIo Builder PAppIo PApi Socks.

(** * Specification: what a descriptor can refer to, and what Linux then answers *)

Record sock := { k_domain : N; k_type : N; k_protocol : N; k_listens : bool }.
Inductive object := File (mode : N) | Sock (s : sock).
(** The answers of the system for the object; anything can be refused to the process, for example by a filter of system calls.  A
    descriptor that does not refer to a socket never has the options of one (88 is "Socket operation on non-socket"). *)
Definition gives {A} (x : res errno A) (a : A) : Prop := x = Ok a \/ exists e, x = Err e.
Definition answered (o : object) (a : answers) : Prop :=
  match o with
  | File m => N.land m 61440 <> 49152%N /\ gives (an_mode a) m /\ an_domain a = Err 88%N /\ an_type a = Err 88%N /\ an_protocol a = Err 88%N
  | Sock s => (exists p, (p < 4096)%N /\ gives (an_mode a) (49152 + p)%N) /\ gives (an_domain a) (k_domain s) /\ gives (an_type a) (k_type s) /\ gives (an_protocol a) (k_protocol s)
  end.
(** A stream socket of the Unix domain, and a socket of the protocol UDP *)
Definition unix_stream (o : object) : Prop := exists s, o = Sock s /\ k_domain s = 1%N /\ k_type s = 1%N.
Definition of_udp (o : object) : Prop := exists s, o = Sock s /\ k_protocol s = 17%N.

Lemma mode_bits p : (p < 4096)%N -> N.land (49152 + p) 61440 = 49152%N.
Proof.
  intros L. change 49152%N with (12 * 2 ^ 12)%N at 1. change 61440%N with (15 * 2 ^ 12)%N.
  rewrite <- (N.shiftl_mul_pow2 15), <- (N.shiftl_mul_pow2 12).
  assert (E : (N.shiftl 12 12 + p = N.lor (N.shiftl 12 12) p)%N).
  { assert (Z : N.land (N.shiftl 12 12) p = 0%N).
    { apply N.bits_inj. intros i. rewrite N.land_spec, N.bits_0. destruct (N.ltb_spec i 12) as [I|I].
      - now rewrite N.shiftl_spec_low.
      - replace (N.testbit p i) with false; [apply Bool.andb_false_r|]. symmetry.
        destruct (N.eq_dec p 0) as [->|P0]; [apply N.bits_0|]. apply N.bits_above_log2.
        assert (N.log2 p < 12)%N; [|lia]. apply N.log2_lt_pow2; [lia|exact L]. }
    rewrite N.add_nocarry_lxor by exact Z. now apply N.lxor_lor. }
  rewrite E. apply N.bits_inj. intros i. rewrite N.land_spec, N.lor_spec.
  change 49152%N with (N.shiftl 12 12). destruct (N.ltb_spec i 12) as [I|I].
  - rewrite !N.shiftl_spec_low by exact I. now rewrite Bool.andb_false_r.
  - replace (N.testbit p i) with false.
    + rewrite Bool.orb_false_r. rewrite !N.shiftl_spec_high' by exact I. rewrite <- N.land_spec. reflexivity.
    + symmetry. destruct (N.eq_dec p 0) as [->|P0]; [apply N.bits_0|]. apply N.bits_above_log2.
      assert (N.log2 p < 12)%N; [|lia]. apply N.log2_lt_pow2; [lia|exact L].
Qed.

(** What an answer says about the object *)
Lemma says_mode o a m : answered o a -> an_mode a = Ok m -> (N.land m 61440 = 49152%N <-> exists s, o = Sock s).
Proof.
  intros A E. destruct o as [m'|s]; cbn [answered] in A.
  - destruct A as (N & [X|(e & X)] & _); [|congruence]. assert (m' = m) by congruence. subst m'. split; [contradiction|intros (? & ?); discriminate].
  - destruct A as ((p & L & [X|(e & X)]) & _); [|congruence]. assert (m = 49152 + p)%N by congruence. subst m.
    split; [eauto|intros _; now apply mode_bits].
Qed.
Lemma says_domain o a d : answered o a -> an_domain a = Ok d -> exists s, o = Sock s /\ k_domain s = d.
Proof.
  intros A E. destruct o as [m'|s]; cbn [answered] in A; [destruct A as (_ & _ & X & _); congruence|].
  destruct A as (_ & [X|(e & X)] & _); [|congruence]. exists s. split; [reflexivity|congruence].
Qed.
Lemma says_type o a t : answered o a -> an_type a = Ok t -> exists s, o = Sock s /\ k_type s = t.
Proof.
  intros A E. destruct o as [m'|s]; cbn [answered] in A; [destruct A as (_ & _ & _ & X & _); congruence|].
  destruct A as (_ & _ & [X|(e & X)] & _); [|congruence]. exists s. split; [reflexivity|congruence].
Qed.
Lemma says_protocol o a p : answered o a -> an_protocol a = Ok p -> exists s, o = Sock s /\ k_protocol s = p.
Proof.
  intros A E. destruct o as [m'|s]; cbn [answered] in A; [destruct A as (_ & _ & _ & _ & X); congruence|].
  destruct A as (_ & _ & _ & [X|(e & X)]); [|congruence]. exists s. split; [reflexivity|congruence].
Qed.
Lemma no_panic o a : answered o a -> an_mode a <> Panic /\ an_domain a <> Panic /\ an_type a <> Panic /\ an_protocol a <> Panic.
Proof.
  intros A. destruct o as [m'|s]; cbn [answered] in A.
  - destruct A as (_ & [X|(e & X)] & Y & Z & W); repeat split; congruence.
  - destruct A as ((p & _ & [X|(e & X)]) & [Y|(? & Y)] & [Z|(? & Z)] & [W|(? & W)]); repeat split; congruence.
Qed.

(** * The predicates *)

(** A yes is always true and so is a no; an error is only reported if the system refused to answer, or if there was no socket to ask
    about. *)
Theorem C112_predicates : forall o a, answered o a ->
  (forall b, is_socket a = Ok b -> b = true <-> exists s, o = Sock s) /\
  (forall b, is_datagram_socket a = Ok b -> exists s, o = Sock s /\ (b = true <-> k_type s = 2%N)) /\
  (forall b, is_stream_socket a = Ok b -> exists s, o = Sock s /\ (b = true <-> k_type s = 1%N)) /\
  (forall b, is_unix_socket a = Ok b -> exists s, o = Sock s /\ (b = true <-> k_domain s = 1%N)) /\
  (forall b, is_unix_stream_socket a = Ok b -> b = true <-> unix_stream o) /\
  (forall b, is_udp_socket a = Ok b -> b = true <-> of_udp o).
Proof.
  intros o a A. unfold is_unix_stream_socket, is_socket, is_datagram_socket, is_stream_socket, is_unix_socket, is_udp_socket, socket_protocol,
    socket_type, socket_domain, unix_stream, of_udp, mode_is_socket.
  split; [|split; [|split; [|split; [|split]]]]; intros b H.
  - destruct (an_mode a) as [m| |] eqn:E; cbn [rbind] in H; [|discriminate..]. rewrite <- (says_mode o a m A E).
    assert (b = N.eqb (N.land m 61440) 49152) by (unfold S_IFMT, S_IFSOCK in H; congruence). subst b. apply N.eqb_eq.
  - destruct (an_type a) as [t| |] eqn:E; cbn [rbind] in H; [|discriminate..]. destruct (says_type o a t A E) as (s & -> & <-).
    exists s. split; [reflexivity|]. assert (b = N.eqb (k_type s) 2) by (unfold SOCK_DGRAM in H; congruence). subst b. apply N.eqb_eq.
  - destruct (an_type a) as [t| |] eqn:E; cbn [rbind] in H; [|discriminate..]. destruct (says_type o a t A E) as (s & -> & <-).
    exists s. split; [reflexivity|]. assert (b = N.eqb (k_type s) 1) by (unfold SOCK_STREAM in H; congruence). subst b. apply N.eqb_eq.
  - destruct (an_domain a) as [t| |] eqn:E; cbn [rbind] in H; [|discriminate..]. destruct (says_domain o a t A E) as (s & -> & <-).
    exists s. split; [reflexivity|]. assert (b = N.eqb (k_domain s) 1) by (unfold AF_UNIX in H; congruence). subst b. apply N.eqb_eq.
  - destruct (an_domain a) as [d| |] eqn:E; cbn [rbind] in H; [|discriminate..]. destruct (says_domain o a d A E) as (s & Es & Ed).
    unfold AF_UNIX in H. destruct (N.eqb_spec d 1) as [D|D]; cbv iota in H.
    + destruct (an_type a) as [t| |] eqn:F; cbn [rbind] in H; [|discriminate..]. destruct (says_type o a t A F) as (s' & Es' & Et).
      assert (b = N.eqb t 1) by (unfold SOCK_STREAM in H; congruence). subst b. rewrite N.eqb_eq. split.
      * intros T. exists s. split; [exact Es|]. split; congruence.
      * intros (s2 & E2 & _ & T). congruence.
    + assert (b = false) by congruence. subst b. split; [discriminate|]. intros (s2 & E2 & D2 & _). congruence.
  - destruct (an_protocol a) as [p| |] eqn:E; cbn [rbind] in H; [|discriminate..]. destruct (says_protocol o a p A E) as (s & Es & Ep).
    unfold IPPROTO_UDP in H. destruct (N.eqb_spec p 0) as [Z|Z].
    + assert (b = false) by congruence. subst b. split; [discriminate|]. intros (s2 & E2 & P2). congruence.
    + assert (b = N.eqb p 17) by congruence. subst b. rewrite N.eqb_eq. split; [intros T; exists s; split; congruence|].
      intros (s2 & E2 & P2). congruence.
Qed.
Print Assumptions C112_predicates.

(** The two demands are met only by what was demanded.  If the system answers, they are met by it, and what is named in a refusal
    is how things are. *)
Theorem C112_demands : forall o a, answered o a ->
  (demand_unix_stream_socket a = Ok tt -> unix_stream o /\ is_unix_stream_socket a = Ok true) /\
  (demand_udp_socket a = Ok tt -> of_udp o /\ is_udp_socket a = Ok true) /\
  (forall e, demand_unix_stream_socket a = Err e -> match e with
     | NotStream t => exists s, o = Sock s /\ k_domain s = 1%N /\ k_type s = t /\ t <> 1%N
     | NotUnix d => exists s, o = Sock s /\ k_domain s = d /\ d <> 1%N
     | System n => an_domain a = Err n \/ an_type a = Err n
     | _ => False end) /\
  (forall e, demand_udp_socket a = Err e -> match e with
     | NotUdp p => exists s, o = Sock s /\ k_protocol s = p /\ p <> 17%N
     | NoProtocol => exists s, o = Sock s /\ k_protocol s = 0%N
     | System n => an_protocol a = Err n
     | _ => False end) /\
  demand_unix_stream_socket a <> Panic /\ demand_udp_socket a <> Panic.
Proof.
  intros o a A. destruct (no_panic o a A) as (_ & Nd & Nt & Np).
  assert (D1 : (demand_unix_stream_socket a = Ok tt -> unix_stream o /\ is_unix_stream_socket a = Ok true) /\
    (forall e, demand_unix_stream_socket a = Err e -> match e with
     | NotStream t => exists s, o = Sock s /\ k_domain s = 1%N /\ k_type s = t /\ t <> 1%N
     | NotUnix d => exists s, o = Sock s /\ k_domain s = d /\ d <> 1%N
     | System n => an_domain a = Err n \/ an_type a = Err n
     | _ => False end) /\ demand_unix_stream_socket a <> Panic).
  { unfold demand_unix_stream_socket, is_unix_stream_socket, is_unix_socket, is_stream_socket, socket_domain, socket_type.
    destruct (an_domain a) as [d|n|] eqn:E; cbn [from_errno rbind]; [|repeat split; try discriminate; intros e H; assert (e = System n) by congruence; subst; auto|contradiction].
    destruct (says_domain o a d A E) as (s & Es & Ed).
    destruct (an_type a) as [t|n|] eqn:F; cbn [from_errno rbind]; [|repeat split; try discriminate; intros e H; assert (e = System n) by congruence; subst; auto|contradiction].
    destruct (says_type o a t A F) as (s' & Es' & Et). assert (s' = s) by congruence. subst s'. unfold AF_UNIX, SOCK_STREAM.
    destruct (N.eqb_spec d 1) as [D|D]; [destruct (N.eqb_spec t 1) as [T|T]|].
    - split; [|split; discriminate]. intros _. split; [exists s; repeat split; congruence|reflexivity].
    - split; [discriminate|]. split; [|discriminate]. intros e H. assert (e = NotStream t) by congruence. subst e. exists s. repeat split; congruence.
    - split; [discriminate|]. split; [|discriminate]. intros e H. assert (e = NotUnix d) by congruence. subst e. exists s. repeat split; congruence. }
  assert (D2 : (demand_udp_socket a = Ok tt -> of_udp o /\ is_udp_socket a = Ok true) /\
    (forall e, demand_udp_socket a = Err e -> match e with
     | NotUdp p => exists s, o = Sock s /\ k_protocol s = p /\ p <> 17%N
     | NoProtocol => exists s, o = Sock s /\ k_protocol s = 0%N
     | System n => an_protocol a = Err n
     | _ => False end) /\ demand_udp_socket a <> Panic).
  { unfold demand_udp_socket, is_udp_socket, socket_protocol.
    destruct (an_protocol a) as [p|n|] eqn:E; cbn [rbind]; [|repeat split; try discriminate; intros e H; assert (e = System n) by congruence; subst; auto|contradiction].
    destruct (says_protocol o a p A E) as (s & Es & Ep). unfold IPPROTO_UDP.
    destruct (N.eqb_spec p 0) as [Z|Z]; [|destruct (N.eqb_spec p 17) as [U|U]].
    - split; [discriminate|]. split; [|discriminate]. intros e H. assert (e = NoProtocol) by congruence. subst e. exists s. split; congruence.
    - split; [|split; discriminate]. intros _. split; [exists s; split; congruence|reflexivity].
    - split; [discriminate|]. split; [|discriminate]. intros e H. assert (e = NotUdp p) by congruence. subst e. exists s. repeat split; congruence. }
  tauto.
Qed.
Print Assumptions C112_demands.

(** In the other direction: a descriptor of the right kind is accepted unless the system refuses to answer. *)
Theorem C112_right_ones_pass : forall o a, answered o a ->
  (unix_stream o -> (forall e, an_domain a <> Err e) -> (forall e, an_type a <> Err e) -> demand_unix_stream_socket a = Ok tt) /\
  (of_udp o -> (forall e, an_protocol a <> Err e) -> demand_udp_socket a = Ok tt).
Proof.
  intros o a A. split.
  - intros (s & -> & D & T) Nd Nt. cbn [answered] in A. destruct A as (_ & [Xd|(e & Xd)] & [Xt|(e' & Xt)] & _);
      try (now apply Nd in Xd); try (now apply Nt in Xt).
    unfold demand_unix_stream_socket, socket_domain, socket_type. rewrite Xd, Xt, D, T. reflexivity.
  - intros (s & -> & U) Np. cbn [answered] in A. destruct A as (_ & _ & _ & [Xp|(e & Xp)]); [|now apply Np in Xp].
    unfold demand_udp_socket, socket_protocol. rewrite Xp, U. reflexivity.
Qed.
Print Assumptions C112_right_ones_pass.

(** * Requests to the API *)

(** The first descriptor of a request, as the model of the API has it, belongs to the object [o]. *)
Definition stands_for (f : fdesc) (o : object) : Prop := exists a nb, answered o a /\ fd_udp f = listenable a nb /\
  (fd_stream f <> None -> connectable a nb = true).

(** A request to listen on anything that is not of the protocol UDP, and a request to add a broker at anything that is not a Unix stream
    socket, is answered "invalid request" and changes nothing. *)
Theorem C112_requests : forall P e req rest f fds o buf w, stands_for f o -> 32 <= length buf -> io_reachable (w_io w) ->
  (req = code Req AddListenSocket ++ rest -> ~ of_udp o ->
   handle_message P e req (f :: fds) buf w = (w, fds, code Resp AddListenSocket ++ le_enc 16 1 ++ skipn 32 buf, Ok 32)) /\
  (req = code Req AddPskBroker ++ rest -> ~ unix_stream o ->
   handle_message P e req (f :: fds) buf w = (w, fds, code Resp AddPskBroker ++ le_enc 16 1 ++ skipn 32 buf, Ok 32)).
Proof.
  intros P e req rest f fds o buf w (a & nb & A & U & S) B R. destruct (C112_demands o a A) as (D1 & D2 & _). split.
  - intros Q N. destruct (C35_listen P e req rest (f :: fds) buf w Q B R) as (w' & fds' & n & st & H & -> & _ & -> & K).
    replace (fd_udp f) with false in K.
    2: { rewrite U. unfold listenable. destruct (demand_udp_socket a) as [[]| |]; try reflexivity. exfalso. apply N. now apply D2. }
    destruct K as (-> & ->). exact H.
  - intros -> N. assert (St : starts_with Req AddPskBroker [] (code Req AddPskBroker ++ rest)) by (split; [reflexivity|exists rest; reflexivity]).
    rewrite (handle_shape _ _ _ _ _ _ _ _ St) by (cbn [payload_len]; lia). cbn [handle payload_len Nat.add].
    assert (Z : fd_stream f = None).
    { destruct (fd_stream f) eqn:F; [|reflexivity]. exfalso. apply N.
      assert (C : connectable a nb = true) by (apply S; discriminate). unfold connectable in C.
      destruct (demand_unix_stream_socket a) as [[]| |]; try discriminate. now apply D1. }
    rewrite Z. unfold add_psk_broker. cbn [tl]. rewrite splice_second by apply code_length. rewrite le_enc_length, skipn_skipn'.
    destruct w. reflexivity.
Qed.
Print Assumptions C112_requests.

(** * What is not checked *)

(** The full property would have that a socket that is listened on exchanges UDP datagrams, and that a broker is at the other end of a
    connection.  A raw socket for UDP gets past the first demand, as only the protocol is looked at, and a socket that listens for
    connections gets past the second. *)
Theorem C112_udp_refuted : exists s a, k_type s = 3%N /\ answered (Sock s) a /\ demand_udp_socket a = Ok tt /\ listenable a true = true.
Proof.
  exists {| k_domain := 2; k_type := 3; k_protocol := 17; k_listens := false |},
    {| an_mode := Ok (49152 + 511)%N; an_domain := Ok 2%N; an_type := Ok 3%N; an_protocol := Ok 17%N |}.
  split; [reflexivity|]. split; [|split; reflexivity]. cbn [answered]. split; [exists 511%N; split; [lia|now left]|].
  split; [now left|]. split; now left.
Qed.
Print Assumptions C112_udp_refuted.
Theorem C112_listener_refuted : exists s a, k_listens s = true /\ answered (Sock s) a /\ demand_unix_stream_socket a = Ok tt /\ connectable a true = true.
Proof.
  exists {| k_domain := 1; k_type := 1; k_protocol := 0; k_listens := true |},
    {| an_mode := Ok (49152 + 511)%N; an_domain := Ok 1%N; an_type := Ok 1%N; an_protocol := Ok 0%N |}.
  split; [reflexivity|]. split; [|split; reflexivity]. cbn [answered]. split; [exists 511%N; split; [lia|now left]|].
  split; [now left|]. split; now left.
Qed.
Print Assumptions C112_listener_refuted.

(** Non-vacuity: a UDP socket, a TCP socket and a file *)
Example C112_nonvacuous : exists u t f au at_ af,
  answered u au /\ answered t at_ /\ answered f af /\ of_udp u /\ demand_udp_socket au = Ok tt /\
  demand_udp_socket at_ = Err (NotUdp 6%N) /\ demand_unix_stream_socket at_ = Err (NotUnix 2%N) /\ demand_unix_stream_socket af = Err (System 88%N) /\
  is_socket af = Ok false /\ is_socket au = Ok true.
Proof.
  exists (Sock {| k_domain := 2; k_type := 2; k_protocol := 17; k_listens := false |}),
    (Sock {| k_domain := 2; k_type := 1; k_protocol := 6; k_listens := true |}), (File 33188),
    {| an_mode := Ok (49152 + 511)%N; an_domain := Ok 2%N; an_type := Ok 2%N; an_protocol := Ok 17%N |},
    {| an_mode := Ok (49152 + 511)%N; an_domain := Ok 2%N; an_type := Ok 1%N; an_protocol := Ok 6%N |},
    {| an_mode := Ok 33188%N; an_domain := Err 88%N; an_type := Err 88%N; an_protocol := Err 88%N |}.
  split; [|split; [|split; [|split]]].
  - cbn [answered k_domain k_type k_protocol]. split; [exists 511%N; split; [lia|now left]|]. split; [now left|]. split; now left.
  - cbn [answered k_domain k_type k_protocol]. split; [exists 511%N; split; [lia|now left]|]. split; [now left|]. split; now left.
  - cbn [answered]. split; [vm_compute; discriminate|]. split; [now left|]. split; [|split]; reflexivity.
  - now eexists.
  - repeat split.
Qed.
