(** Receiving: [try_recv] of the application server, with the part of the operating system it
    talks to.  Line numbers refer to rosenpass/src/app_server.rs.

    Simplifications: at most [EVENT_CAPACITY] (307) sources are ready at a time; interrupted
    system calls, which are retried (1535, 1625), are left out; what the brokers and the API
    do when polled is in AppIo.v, here only whether it fails. *)
From Verif Require Import Base Wire Server AppNet.

(** * The operating system *)

(** A datagram with its source.  No code in /repo: UDP. *)
Definition dgram : Type := (bytes * sockaddr)%type.
(** A UDP socket: the datagrams waiting there, whether readiness has come up that no poll has
    reported yet, and all datagrams that have arrived so far.  No code in /repo: what the sockets of app_server.rs 328 stand for. *)
Record usock := { k_wait : list dgram; k_edge : bool; k_all : list dgram }.
(** No code in /repo: all sockets, and the signal handler of app_server.rs 1605-1613. *)
Record kernel := { k_socks : list usock; k_sig : bool; k_sig_edge : bool }.

(** How the poll reports readiness: while there is something to read, or once when something
    arrives.  [mio] registers its sources edge-triggered; the comment at 1462 says
    level-triggered. *)
Inductive trigger := Level | Edge.

(** No code in /repo: the system gets a datagram. *)
Definition arrive (a : nat * dgram) (k : kernel) : kernel :=
  match nth_error (k_socks k) (fst a) with
  | None => k
  | Some s => {| k_socks := upd (fst a) {| k_wait := k_wait s ++ [snd a]; k_edge := true; k_all := k_all s ++ [snd a] |} (k_socks k);
                 k_sig := k_sig k; k_sig_edge := k_sig_edge k |}
  end.
(** No code in /repo: several datagrams. *)
Definition arrives (l : list (nat * dgram)) (k : kernel) : kernel := fold_left (fun k a => arrive a k) l k.
(** No code in /repo: the process gets one of the signals of app_server.rs 819-826. *)
Definition signal (k : kernel) : kernel := {| k_socks := k_socks k; k_sig := true; k_sig_edge := true |}.

(** An event: the signal handler, a socket, or a broker or API source.  app_server.rs 287-298 *)
Inductive ready := EvSig | EvSock (i : nat) | EvOther.

(** No code in /repo: what [mio] reports. *)
Definition sock_ready (m : trigger) (s : usock) : bool :=
  match m with Level => match k_wait s with [] => false | _ => true end | Edge => k_edge s end.
(** No code in /repo: what [mio] reports. *)
Fixpoint ready_socks (m : trigger) (i : nat) (l : list usock) : list ready :=
  match l with
  | [] => []
  | s :: l' => (if sock_ready m s then [EvSock i] else []) ++ ready_socks m (S i) l'
  end.
(** [mio::Poll::poll] on what is ready now; [extra] are events of brokers and of the API, and
    spurious ones, which the documentation of [mio] allows (1373). *)
Definition mio_poll (m : trigger) (extra : list ready) (k : kernel) : kernel * list ready :=
  ({| k_socks := map (fun s => {| k_wait := k_wait s; k_edge := false; k_all := k_all s |}) (k_socks k);
      k_sig := k_sig k; k_sig_edge := false |},
   extra ++ (if match m with Level => k_sig k | Edge => k_sig_edge k end then [EvSig] else [])
         ++ ready_socks m 0 (k_socks k)).

(** * The application *)

(** app_server.rs 320-378: the fields that 1355-1550 use *)
Record rstate := {
  r_drained : bool;           (* all_sockets_drained *)
  r_queue : list ready;       (* short_poll_queue *)
  r_long : bool;              (* performed_long_poll *)
  r_unpolled : nat; r_nonblocking : nat; r_blocking : nat;
  r_last : time;              (* last_update_time *)
  r_load : bool;              (* under_load *)
  r_dos : bool                (* test_helpers, enable_dos_permanently *)
}.
(** app_server.rs 1473, 1544-1548 *)
Definition set_queue (q : list ready) (r : rstate) : rstate :=
  {| r_drained := r_drained r; r_queue := q; r_long := r_long r; r_unpolled := r_unpolled r;
     r_nonblocking := r_nonblocking r; r_blocking := r_blocking r; r_last := r_last r; r_load := r_load r; r_dos := r_dos r |}.
(** app_server.rs 1497, 1509 *)
Definition set_drained (b : bool) (r : rstate) : rstate :=
  {| r_drained := b; r_queue := r_queue r; r_long := r_long r; r_unpolled := r_unpolled r;
     r_nonblocking := r_nonblocking r; r_blocking := r_blocking r; r_last := r_last r; r_load := r_load r; r_dos := r_dos r |}.
(** app_server.rs 1408, 1524 *)
Definition set_long (b : bool) (r : rstate) : rstate :=
  {| r_drained := r_drained r; r_queue := r_queue r; r_long := b; r_unpolled := r_unpolled r;
     r_nonblocking := r_nonblocking r; r_blocking := r_blocking r; r_last := r_last r; r_load := r_load r; r_dos := r_dos r |}.
(** app_server.rs 1387, 1394, 1406, 1440-1442 *)
Definition set_counts (u n b : nat) (r : rstate) : rstate :=
  {| r_drained := r_drained r; r_queue := r_queue r; r_long := r_long r; r_unpolled := u;
     r_nonblocking := n; r_blocking := b; r_last := r_last r; r_load := r_load r; r_dos := r_dos r |}.
(** app_server.rs 1418, 1422, 1434-1438 *)
Definition set_status (t : time) (b : bool) (r : rstate) : rstate :=
  {| r_drained := r_drained r; r_queue := r_queue r; r_long := r_long r; r_unpolled := r_unpolled r;
     r_nonblocking := r_nonblocking r; r_blocking := r_blocking r; r_last := t; r_load := b; r_dos := r_dos r |}.

(** app_server.rs 928-939: the fields after [AppServer::new]. *)
Definition r_new (now : time) (dos : bool) : rstate :=
  {| r_drained := false; r_queue := []; r_long := false; r_unpolled := 0; r_nonblocking := 0; r_blocking := 0;
     r_last := now; r_load := false; r_dos := dos |}.
Definition k_new (n : nat) : kernel :=
  {| k_socks := repeat {| k_wait := []; k_edge := false; k_all := [] |} n; k_sig := false; k_sig_edge := false |}.

(** What happens around one call.  No code in /repo: what the system does during app_server.rs 1355-1527. *)
Record renv := {
  v_now : time;
  v_extra1 : list ready; v_extra2 : list ready;   (* further events of the two polls *)
  v_block : list (nat * dgram);                   (* arrivals while the second poll blocks *)
  v_mid : list (nat * dgram);                     (* arrivals before the events are handled *)
  v_scan : nat -> list (nat * dgram);             (* arrivals before socket [i] is looked at *)
  v_poll_ok : bool;                               (* polls work *)
  v_err : nat -> bool;                            (* reading socket [i] fails *)
  v_other_ok : bool                               (* brokers and the API can be polled *)
}.

(** app_server.rs 300-304 [AppServerTryRecvResult], and errors *)
Inductive got := GNone | GTerminate | GMessage (i : nat) (d : dgram) | GError.

(** 1616-1634 [try_recv_from_listen_socket]: a datagram, [inl false] for [WouldBlock], [inl true]
    for another error.  The buffer has [MAX_MESSAGE_LEN] (msgs.rs:29) bytes; what does not fit is
    cut off. *)
Definition MAX_MESSAGE_LEN : nat := 2500.
Definition trim (d : dgram) : dgram := (firstn MAX_MESSAGE_LEN (fst d), snd d).
Definition recv_sock (v : renv) (i : nat) (k : kernel) : kernel * (bool + dgram) :=
  if v_err v i then (k, inl true)
  else match nth_error (k_socks k) i with
       | None => (k, inl true)
       | Some s =>
           match k_wait s with
           | [] => (k, inl false)
           | d :: l => ({| k_socks := upd i {| k_wait := l; k_edge := k_edge s; k_all := k_all s |} (k_socks k);
                           k_sig := k_sig k; k_sig_edge := k_sig_edge k |}, inr (trim d))
           end
       end.

(** app_server.rs 1605-1613 [try_recv_from_signal_handler] *)
Definition recv_signal (k : kernel) : kernel * got :=
  if k_sig k then ({| k_socks := k_socks k; k_sig := false; k_sig_edge := k_sig_edge k |}, GTerminate) else (k, GNone).

(** app_server.rs 1553-1602: what an event makes the server look at. *)
Definition recv_ready (v : renv) (e : ready) (k : kernel) : kernel * got :=
  match e with
  | EvSig => recv_signal k
  | EvSock i =>
      match recv_sock v i k with
      | (k, inl false) => (k, GNone)
      | (k, inl true) => (k, GError)
      | (k, inr d) => (k, GMessage i d)
      end
  | EvOther => (k, if v_other_ok v then GNone else GError)
  end.

(** app_server.rs 1473-1478: handle events until one gives something; the rest of the queue is kept. *)
Fixpoint handle_queue (v : renv) (q : list ready) (k : kernel) : kernel * list ready * got :=
  match q with
  | [] => (k, [], GNone)
  | e :: q' =>
      match recv_ready v e k with
      | (k, GNone) => handle_queue v q' k
      | (k, g) => (k, q', g)
      end
  end.

(** app_server.rs 1488-1508: look at the sockets from [i] on, [n] of them.  As no read gives
    [AppServerTryRecvResult::None], the end is only reached if each would block, and 1508 sets
    [all_sockets_drained]. *)
Fixpoint scan (v : renv) (n i : nat) (k : kernel) : kernel * got :=
  match n with
  | O => (k, GNone)
  | S n' =>
      let k := arrives (v_scan v i) k in
      match recv_sock v i k with
      | (k, inl false) => scan v n' (S i) k
      | (k, inl true) => (k, GError)
      | (k, inr d) => (k, GMessage i d)
      end
  end.

(** Which of the four ways through app_server.rs 1385-1409 a call took; [Blocking] comes with the state of the
    operating system at the moment the server goes to sleep. *)
Inductive way := Unpolled | NonBlocking | Pass | Blocking (k : kernel).

(** app_server.rs 1385-1409: the polls. *)
Definition polls (m : trigger) (v : renv) (r : rstate) (k : kernel) : rstate * kernel * option way :=
  if negb (r_drained r) || match r_queue r with [] => false | _ => true end
  then (set_counts (r_unpolled r + 1) (r_nonblocking r) (r_blocking r) r, k, Some Unpolled)
  else if negb (v_poll_ok v) then (r, k, None)
  else
    let (k, q) := mio_poll m (v_extra1 v) k in
    let r := set_queue (r_queue r ++ q) r in
    match r_queue r with
    | _ :: _ => (set_counts (r_unpolled r) (r_nonblocking r + 1) (r_blocking r) r, k, Some NonBlocking)
    | [] =>
        if negb (r_long r) then (r, k, Some Pass)
        else
          let r := set_counts (r_unpolled r) (r_nonblocking r) (r_blocking r + 1) r in
          let asleep := k in
          let (k, q) := mio_poll m (v_extra2 v) (arrives (v_block v) k) in
          (set_long false (set_queue (r_queue r ++ q) r), k, Some (Blocking asleep))
    end.

(** app_server.rs 1411-1446: load detection; [UNDER_LOAD_RATIO] (50) is one half,
    [DURATION_UPDATE_UNDER_LOAD_STATUS] (52) 500 ms.  The quotient of the [f64] values of the
    counts is compared exactly. *)
Definition UPDATE_AFTER : time := 500000.
Definition load_status (now : time) (r : rstate) : rstate :=
  if r_dos r then set_status (r_last r) true r
  else if (UPDATE_AFTER <? now - r_last r)%Z then
    let total := r_blocking r + r_nonblocking r in
    let load := if 0 <? total then total <? 2 * r_nonblocking r else 0 <? r_unpolled r in
    set_counts 0 0 0 (set_status now load r)
  else r.

(** app_server.rs 1355-1527 [try_recv], with a timeout above zero. *)
Definition try_recv (m : trigger) (v : renv) (r : rstate) (k : kernel) : rstate * kernel * option way * got :=
  match polls m v r k with
  | (r, k, None) => (r, k, None, GError)
  | (r, k, Some w) =>
      let r := load_status (v_now v) r in
      let k := arrives (v_mid v) k in
      let '(k, q, g) := handle_queue v (r_queue r) k in
      let r := set_queue q r in
      match g with
      | GNone =>
          match recv_signal k with
          | (k, GNone) =>
              match scan v (length (k_socks k)) 0 k with
              | (k, GNone) =>
                  let r := set_drained true r in
                  if v_other_ok v then (set_long true r, k, Some w, GNone) else (r, k, Some w, GError)
              | (k, GError) => (r, k, Some w, GError)
              | (k, g) => (set_drained false r, k, Some w, g)
              end
          | (k, g) => (r, k, Some w, g)
          end
      | g => (r, k, Some w, g)
      end
  end.

(** * Histories *)

(** No code in /repo: what happens around calls of app_server.rs 1355. *)
Inductive rop := Arrive (a : nat * dgram) | Signal | Recv (v : renv).
(** No code in /repo: what is observed. *)
Inductive rout := ONothing | ORecv (w : option way) (g : got).

(** No code in /repo: one step of a history. *)
Definition rexec (m : trigger) (o : rop) (r : rstate) (k : kernel) : rstate * kernel * rout :=
  match o with
  | Arrive a => (r, arrive a k, ONothing)
  | Signal => (r, signal k, ONothing)
  | Recv v => let '(r, k, w, g) := try_recv m v r k in (r, k, ORecv w g)
  end.

(** No code in /repo: histories. *)
Inductive rrun (m : trigger) : rstate -> kernel -> list (rop * rout) -> rstate -> kernel -> Prop :=
| rr_nil r k : rrun m r k [] r k
| rr_cons r k o r1 k1 y h r2 k2 :
    rexec m o r k = (r1, k1, y) -> rrun m r1 k1 h r2 k2 -> rrun m r k ((o, y) :: h) r2 k2.
