(** Registration of I/O sources with the application server: tokens, listening sockets, PSK
    brokers, API listeners and API connections.  Line numbers without a file name refer to
    rosenpass/src/app_server.rs.

    What the operating system answers to a registration is an argument of each function:
    [true] if it succeeds. *)
From Verif Require Import Base.

(** [HashMap] with numbers as keys. *)
Section Maps.
Context {A : Type}.
(** No code in /repo: std [HashMap], as app_server.rs 131-134 and 338-350 use it. *)
Definition map_t := list (nat * A).
(** std [HashMap::get]; no code in /repo, used at app_server.rs 1558 *)
Fixpoint mget (k : nat) (m : map_t) : option A :=
  match m with
  | [] => None
  | (j, v) :: m' => if Nat.eqb k j then Some v else mget k m'
  end.
(** [remove]  No code in /repo, used at app_server.rs 996, 1024-1038 *)
Definition mdel (k : nat) (m : map_t) : map_t := filter (fun e => negb (Nat.eqb k (fst e))) m.
(** [insert]; the previous value is [mget k m].  No code in /repo, used at app_server.rs 989-1021 *)
Definition mset (k : nat) (v : A) (m : map_t) : map_t := (k, v) :: mdel k m.
End Maps.
Arguments map_t : clear implicits.

(** 287-298 [AppServerIoSource], rosenpass/src/api/mio/manager.rs:24-29 [MioManagerIoSource] *)
Inductive iosrc :=
| SrcSignal
| SrcSocket (idx : nat)
| SrcBroker (ptr : nat)
| SrcListener (idx : nat)
| SrcConnection (idx : nat).

(** A registered broker: the object handed to [register_broker], and its [mio_token]
    (wireguard-broker/src/brokers/mio_client.rs:97-100, native_unix.rs:134-150).  The keys of
    the broker store are 8 byte little-endian numbers (1005), here numbers. *)
Record broker := { br_obj : nat; br_token : option nat }.

(** An API connection (rosenpass/src/api/mio/connection.rs:59-65), of which only the token
    matters here. *)
Record conn := { cn_token : nat }.

(** The fields of [AppServer] (320-378) concerned with I/O sources: number of UDP sockets,
    token dispenser (78-80), index of I/O sources, brokers, and of [MioManager]
    (manager.rs:17-20) the number of listeners and the connections. *)
Record io := {
  io_sockets : nat;
  io_counter : nat;
  io_index : map_t iosrc;
  io_brokers : map_t broker;
  io_listeners : nat;
  io_conns : list (option conn)
}.

(** app_server.rs 320-378, manager.rs 17-20: assignments to single fields *)
Definition set_io_sockets n x := {| io_sockets := n; io_counter := io_counter x; io_index := io_index x;
  io_brokers := io_brokers x; io_listeners := io_listeners x; io_conns := io_conns x |}.
Definition set_io_counter n x := {| io_sockets := io_sockets x; io_counter := n; io_index := io_index x;
  io_brokers := io_brokers x; io_listeners := io_listeners x; io_conns := io_conns x |}.
Definition set_io_index n x := {| io_sockets := io_sockets x; io_counter := io_counter x; io_index := n;
  io_brokers := io_brokers x; io_listeners := io_listeners x; io_conns := io_conns x |}.
Definition set_io_brokers n x := {| io_sockets := io_sockets x; io_counter := io_counter x; io_index := io_index x;
  io_brokers := n; io_listeners := io_listeners x; io_conns := io_conns x |}.
Definition set_io_listeners n x := {| io_sockets := io_sockets x; io_counter := io_counter x; io_index := io_index x;
  io_brokers := io_brokers x; io_listeners := n; io_conns := io_conns x |}.
Definition set_io_conns n x := {| io_sockets := io_sockets x; io_counter := io_counter x; io_index := io_index x;
  io_brokers := io_brokers x; io_listeners := io_listeners x; io_conns := n |}.

(** Errors, and what a registration that worked returns: the token, and the position or
    pointer of the new source.  app_server.rs 977-1038, manager.rs 66-104 *)
Inductive io_err := IoRegister | IoBrokerExists | IoBrokerMissing | IoConnection.
(** No code in /repo: functions that change the state and return a [Result]. *)
Definition IO (A : Type) : Type := io -> io * res io_err A.

(** app_server.rs 108-112 [dispense]; overflow of the counter is not modelled. *)
Definition dispense (x : io) : io * nat := (set_io_counter (io_counter x + 1) x, io_counter x).

(** app_server.rs 989-992 [register_io_source] *)
Definition register_io_source (t : nat) (src : iosrc) : IO unit := fun x =>
  let x' := set_io_index (mset t src (io_index x)) x in
  match mget t (io_index x) with Some _ => (x', Panic) | None => (x', Ok tt) end.

(** app_server.rs 995-998 [unregister_io_source] *)
Definition unregister_io_source (t : nat) : IO unit := fun x =>
  let x' := set_io_index (mdel t (io_index x)) x in
  match mget t (io_index x) with Some _ => (x', Ok tt) | None => (x', Panic) end.

(** app_server.rs 977-986 [register_listen_socket] *)
Definition register_listen_socket (ok : bool) : IO nat := fun x =>
  let (x, t) := dispense x in
  if negb ok then (x, Err IoRegister)
  else
    let src := SrcSocket (io_sockets x) in
    let x := set_io_sockets (io_sockets x + 1) x in
    match register_io_source t src x with
    | (x, Ok _) => (x, Ok t)
    | (x, Err e) => (x, Err e)
    | (x, Panic) => (x, Panic)
    end.

(** 1001-1021 [register_broker].  The broker's [register] notes the token before it asks the
    system (mio_client.rs:199-211). *)
Definition register_broker (obj : nat) (ok : bool) : IO nat := fun x =>
  let ptr := length (io_brokers x) in
  let prev := mget ptr (io_brokers x) in
  let x := set_io_brokers (mset ptr {| br_obj := obj; br_token := None |} (io_brokers x)) x in
  match prev with
  | Some _ => (x, Err IoBrokerExists)
  | None =>
      let (x, t) := dispense x in
      match mget ptr (io_brokers x) with
      | None => (x, Err IoBrokerMissing)
      | Some b =>
          let x := set_io_brokers (mset ptr {| br_obj := br_obj b; br_token := Some t |} (io_brokers x)) x in
          if negb ok then (x, Err IoRegister)
          else match register_io_source t (SrcBroker ptr) x with
               | (x, Ok _) => (x, Ok ptr)
               | (x, Err e) => (x, Err e)
               | (x, Panic) => (x, Panic)
               end
      end
  end.

(** app_server.rs 1024-1033 [unregister_broker] *)
Definition unregister_broker (ptr : nat) (ok : bool) : IO unit := fun x =>
  match mget ptr (io_brokers x) with
  | None => (x, Err IoBrokerMissing)
  | Some b =>
      let x := set_io_brokers (mdel ptr (io_brokers x)) x in
      match br_token b with
      | None => (x, Panic)                 (* unwrap *)
      | Some t =>
          match unregister_io_source t x with
          | (x, Ok _) => if ok then (x, Ok tt) else (x, Err IoRegister)
          | r => r
          end
      end
  end.

(** rosenpass/src/api/api_handler.rs:274-340 [add_psk_broker]: [sock] is the broker made from
    the file descriptor, or [None] if the request carries none or not a socket; the result is
    the status of the response (payload.rs:351-358).  The subtraction underflows if there is no
    broker: in builds with overflow checks this panics; without them the pointer
    18446744073709551615 is not found and the status is 2. *)
Definition BROKER_OK : N := 0.
Definition BROKER_INVALID_REQUEST : N := 1.
Definition BROKER_INTERNAL_ERROR : N := 2.
Definition add_psk_broker (sock : option nat) (ok_un ok_re : bool) : IO N := fun x =>
  match sock with
  | None => (x, Ok BROKER_INVALID_REQUEST)
  | Some obj =>
      match length (io_brokers x) with
      | O => (x, Panic)
      | S n =>
          match unregister_broker n ok_un x with
          | (x, Panic) => (x, Panic)
          | (x, Err _) => (x, Ok BROKER_INTERNAL_ERROR)
          | (x, Ok _) =>
              match register_broker obj ok_re x with
              | (x, Ok _) => (x, Ok BROKER_OK)
              | (x, Err _) => (x, Ok BROKER_INTERNAL_ERROR)
              | (x, Panic) => (x, Panic)
              end
          end
      end
  end.

(** rosenpass/src/api/api_handler.rs:233-272 [add_listen_socket]: [valid] tells whether the
    request carries a UDP socket; the result is the status of the response. *)
Definition add_listen_socket (valid ok : bool) : IO N := fun x =>
  if negb valid then (x, Ok 1%N)
  else match register_listen_socket ok x with
       | (x, Ok _) => (x, Ok 0%N)
       | (x, Err _) => (x, Ok 2%N)
       | (x, Panic) => (x, Panic)
       end.

(** manager.rs:66-83 [add_listener] *)
Definition add_listener (ok : bool) : IO nat := fun x =>
  let (x, t) := dispense x in
  if negb ok then (x, Err IoRegister)
  else
    let src := SrcListener (io_listeners x) in
    let x := set_io_listeners (io_listeners x + 1) x in
    match register_io_source t src x with
    | (x, Ok _) => (x, Ok t)
    | (x, Err e) => (x, Err e)
    | (x, Panic) => (x, Panic)
    end.

(** [Iterator::find] for the position of the first occupied slot, manager.rs:91-96. *)
Fixpoint first_some {A} (l : list (option A)) (i : nat) : option nat :=
  match l with
  | [] => None
  | Some _ :: _ => Some i
  | None :: l' => first_some l' (S i)
  end.

(** [Vec::insert]  No code in /repo: used at manager.rs 86-104. *)
Definition vec_insert {A} (i : nat) (v : A) (l : list A) : list A := firstn i l ++ v :: skipn i l.

(** manager.rs:86-104 [add_connection], connection.rs:70-94 [MioConnection::new] *)
Definition add_connection (ok : bool) : IO nat := fun x =>
  let (x, t) := dispense x in
  if negb ok then (x, Err IoRegister)
  else
    let idx := match first_some (io_conns x) 0 with Some i => i | None => length (io_conns x) end in
    let x := set_io_conns (vec_insert idx (Some {| cn_token := t |}) (io_conns x)) x in
    match register_io_source t (SrcListener idx) x with
    | (x, Ok _) => (x, Ok t)
    | (x, Err e) => (x, Err e)
    | (x, Panic) => (x, Panic)
    end.

(** manager.rs:157-175 [poll_particular_connection]: the connection that is polled, if any;
    [out] tells whether polling it works, and if so whether it asks to be closed.  What polling
    a connection does is in ApiConn.v. *)
Inductive polled := Polled | PolledClose | PolledErr.
Definition poll_particular_connection (idx : nat) (out : polled) : IO (option conn) := fun x =>
  match nth_error (io_conns x) idx with
  | None => (x, Panic)
  | Some None => (x, Ok None)
  | Some (Some c) =>
      match out with
      | PolledErr => (x, Err IoConnection)
      | Polled => (x, Ok (Some c))
      | PolledClose =>
        let x := set_io_conns (upd idx None (io_conns x)) x in
        match unregister_io_source (cn_token c) x with
        | (x, Ok _) => (x, Ok (Some c))
        | (x, Err e) => (x, Err e)
        | (x, Panic) => (x, Panic)
        end
      end
  end.

(** manager.rs:149-154 [poll_connections], from slot [idx] on, [n] slots: the connections polled,
    in order, and the result. *)
Fixpoint poll_connections (n idx : nat) (outs : nat -> polled) (x : io) : io * list conn * res io_err unit :=
  match n with
  | O => (x, [], Ok tt)
  | S n' =>
      let seen := match nth_error (io_conns x) idx with Some (Some c) => [c] | _ => [] end in
      match poll_particular_connection idx (outs idx) x with
      | (x, Ok _) => match poll_connections n' (S idx) outs x with (x, l, r) => (x, seen ++ l, r) end
      | (x, Err e) => (x, seen, Err e)
      | (x, Panic) => (x, seen, Panic)
      end
  end.

(** manager.rs:132-146 [accept_from] listener [idx]: [waiting] tells for each connection
    waiting there whether its registration will succeed. *)
Fixpoint accept_all (waiting : list bool) : IO unit := fun x =>
  match waiting with
  | [] => (x, Ok tt)
  | ok :: l =>
      match add_connection ok x with
      | (x, Ok _) => accept_all l x
      | (x, Err e) => (x, Err e)
      | (x, Panic) => (x, Panic)
      end
  end.
Definition accept_from (idx : nat) (waiting : list bool) : IO unit := fun x =>
  if Nat.ltb idx (io_listeners x) then accept_all waiting x else (x, Panic).

(** manager.rs:124-129 [accept_connections], from listener [idx] on, [n] listeners;
    [waiting idx] tells what waits there. *)
Fixpoint accept_connections (n idx : nat) (waiting : nat -> list bool) : IO unit := fun x =>
  match n with
  | O => (x, Ok tt)
  | S n' =>
      match accept_from idx (waiting idx) x with
      | (x, Ok _) => accept_connections n' (S idx) waiting x
      | r => r
      end
  end.

(** manager.rs:117-121 [poll], the long poll of 1519-1523: the connections polled, and the
    result. *)
Definition poll_manager (waiting : nat -> list bool) (outs : nat -> polled) (x : io) : io * list conn * res io_err unit :=
  match accept_connections (io_listeners x) 0 waiting x with
  | (x, Ok _) => poll_connections (length (io_conns x)) 0 outs x
  | (x, r) => (x, [], r)
  end.

(** app_server.rs 1553-1602 [try_recv_from_mio_token], [try_recv_from_io_source]: what an event on token [t]
    makes the server look at. *)
Inductive looked :=
| LNothing
| LSignals
| LSocket (idx : nat)
| LBroker (b : broker)
| LAccept (idx : nat)
| LConnection (c : option conn).
Definition dispatch (t : nat) (waiting : list bool) (out : polled) : IO looked := fun x =>
  match mget t (io_index x) with
  | None => (x, Ok LNothing)
  | Some SrcSignal => (x, Ok LSignals)
  | Some (SrcSocket i) => if Nat.ltb i (io_sockets x) then (x, Ok (LSocket i)) else (x, Panic)
  | Some (SrcBroker p) =>
      match mget p (io_brokers x) with Some b => (x, Ok (LBroker b)) | None => (x, Err IoBrokerMissing) end
  | Some (SrcListener i) =>
      match accept_from i waiting x with
      | (x, Ok _) => (x, Ok (LAccept i))
      | (x, Err e) => (x, Err e)
      | (x, Panic) => (x, Panic)
      end
  | Some (SrcConnection i) =>
      match poll_particular_connection i out x with
      | (x, Ok c) => (x, Ok (LConnection c))
      | (x, Err e) => (x, Err e)
      | (x, Panic) => (x, Panic)
      end
  end.

(** app_server.rs 804-944 [AppServer::new]: the signal handler and [n] sockets; if a registration fails there
    is no server. *)
Fixpoint index_sockets (n : nat) : map_t iosrc :=
  match n with
  | O => [(0, SrcSignal)]
  | S k => mset (S k) (SrcSocket k) (index_sockets k)
  end.
Definition io_new (n : nat) : io :=
  {| io_sockets := n; io_counter := S n; io_index := index_sockets n;
     io_brokers := []; io_listeners := 0; io_conns := [] |}.

(** * Histories *)

(** Calls of app_server.rs 977-1038, 1553-1602, api_handler.rs 233-340 and manager.rs 66-176 *)
Inductive io_op :=
| IListen (ok : bool)
| IBroker (obj : nat) (ok : bool)
| IUnbroker (ptr : nat) (ok : bool)
| IPskBroker (sock : option nat) (ok_un ok_re : bool)
| IListener (ok : bool)
| IConnection (ok : bool)
| IPoll (waiting : nat -> list bool) (outs : nat -> polled)
| IEvent (t : nat) (waiting : list bool) (out : polled).

(** What these calls return *)
Inductive io_out :=
| OToken (t : nat)
| OPtr (p : nat)
| ODone
| OStatus (s : N)
| OPolled (l : list conn)
| OLooked (l : looked).

(** No code in /repo: [Result::map]. *)
Definition rmap {A B E} (f : A -> B) (r : res E A) : res E B :=
  match r with Ok a => Ok (f a) | Err e => Err e | Panic => Panic end.

(** No code in /repo: one of these calls. *)
Definition io_exec (o : io_op) (x : io) : io * res io_err io_out :=
  match o with
  | IListen ok => let (x, r) := register_listen_socket ok x in (x, rmap OToken r)
  | IBroker obj ok => let (x, r) := register_broker obj ok x in (x, rmap OPtr r)
  | IUnbroker p ok => let (x, r) := unregister_broker p ok x in (x, rmap (fun _ => ODone) r)
  | IPskBroker s a b => let (x, r) := add_psk_broker s a b x in (x, rmap OStatus r)
  | IListener ok => let (x, r) := add_listener ok x in (x, rmap OToken r)
  | IConnection ok => let (x, r) := add_connection ok x in (x, rmap OToken r)
  | IPoll w f => match poll_manager w f x with (x, l, r) => (x, rmap (fun _ => OPolled l) r) end
  | IEvent t w c => let (x, r) := dispatch t w c x in (x, rmap OLooked r)
  end.

(** No code in /repo: histories of these calls. *)
Inductive io_run : io -> list (io_op * res io_err io_out) -> io -> Prop :=
| ir_nil x : io_run x [] x
| ir_cons x o x1 r h x2 :
    io_exec o x = (x1, r) -> r <> Panic -> io_run x1 h x2 -> io_run x ((o, r) :: h) x2.

(** The states of a server that has not panicked.  No code in /repo: from app_server.rs 804-944 on. *)
Definition io_reachable (x : io) : Prop := exists n h, io_run (io_new n) h x.
