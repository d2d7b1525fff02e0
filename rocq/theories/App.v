(** The application server: peers with endpoints and key outputs around the protocol engine.
    Line numbers without a file name refer to rosenpass/src/app_server.rs.

    One turn of the event loop is a function of the state and of the answers of the
    environment: the clock, random values, what is received, and whether sending, writing and
    setting a key work. *)
From Verif Require Import Base ConstTime Prims HashDomains Wire Server Protocol Wp Inv Rules Calls PollRules System
  Builder AppNet AppIo.

(** app_server.rs 173-196 [AppPeer]: paths and broker pointers are numbers. *)
Record app_peer := {
  ap_outfile : option nat;
  ap_broker : option nat;
  ap_initial : option endpoint;
  ap_current : option endpoint
}.
Definition set_current (e : option endpoint) (x : app_peer) : app_peer :=
  {| ap_outfile := ap_outfile x; ap_broker := ap_broker x; ap_initial := ap_initial x; ap_current := e |}.
Definition set_initial (e : option endpoint) (x : app_peer) : app_peer :=
  {| ap_outfile := ap_outfile x; ap_broker := ap_broker x; ap_initial := e; ap_current := ap_current x |}.

(** app_server.rs 241-245 [endpoint] *)
Definition ap_endpoint (x : app_peer) : option endpoint :=
  match ap_current x with Some e => Some e | None => ap_initial x end.

(** app_server.rs 320-378 [AppServer]; I/O sources are in AppIo.v, load detection in AppRecv.v. *)
Record app := {
  a_site : site;
  a_peers : list app_peer;
  a_io : io;
  a_under_load : bool
}.
Definition set_site (c : site) (a : app) : app :=
  {| a_site := c; a_peers := a_peers a; a_io := a_io a; a_under_load := a_under_load a |}.
Definition set_peers (l : list app_peer) (a : app) : app :=
  {| a_site := a_site a; a_peers := l; a_io := a_io a; a_under_load := a_under_load a |}.
Definition set_io (x : io) (a : app) : app :=
  {| a_site := a_site a; a_peers := a_peers a; a_io := x; a_under_load := a_under_load a |}.
Definition set_load (b : bool) (a : app) : app :=
  {| a_site := a_site a; a_peers := a_peers a; a_io := a_io a; a_under_load := b |}.

(** app_server.rs 1041-1346: what the methods below fail with (all are [anyhow::Error]) *)
Inductive app_err :=
| ACrypto                      (* site void, or engine missing *)
| AAdd (e : site_err)
| ALookup                      (* host name not resolved *)
| AEngine (e : err)
| ASend
| AFile
| ALine
| ASetPsk
| ARecv                        (* any error of [try_recv] *)
| ADiscovery.                  (* message from a discovery endpoint under load *)

Section WithPrims.
Context (P : prims).

(** app_server.rs 1041-1073 [add_peer].  [host] is [None] without a host name, [Some None] for one that is
    not resolved and [Some (Some l)] for one resolved to [l]. *)
Definition app_add_peer (pp : peer_params) (outfile broker : option nat)
    (host : option (option (list sockaddr))) (a : app) : app * res app_err nat :=
  match site_add_peer P pp (a_site a) with
  | (c, Err e) => (set_site c a, Err (AAdd e))
  | (c, Panic) => (set_site c a, Panic)
  | (c, Ok pn) =>
      let a := set_site c a in
      if negb (Nat.eqb pn (length (a_peers a))) then (a, Panic)
      else match host with
           | Some None => (a, Err ALookup)
           | _ =>
               let e := match host with Some (Some l) => Some (discovery_from_addresses l) | _ => None end in
               (set_peers (a_peers a ++ [{| ap_outfile := outfile; ap_broker := broker;
                                            ap_initial := e; ap_current := None |}]) a, Ok pn)
           end
  end.

(** * The environment of one turn *)

(** What [try_recv] (app_server.rs 1355-1527) gives. *)
Inductive recv :=
| RNothing
| RTerminate
| RDatagram (rx : bytes) (socket : nat) (from : sockaddr)
| RFailed.

(** No code in /repo: one round of app_server.rs 1139-1238 as seen by the system; each field says what it answers. *)
Record turn := {
  u_poll : time * coins;               (* of the engine's poll *)
  u_ops : list io_op;                  (* registrations and events during [try_recv] *)
  u_supply : list (draws * list file); (* supply_keypair requests handled during [try_recv] *)
  u_load : bool;                       (* load status after [try_recv] *)
  u_recv : recv;
  u_call : time * coins;               (* of the engine call that follows *)
  u_tx : bytes;                        (* contents of the transmit buffer before *)
  u_random : bytes;                    (* the random key drawn if a key is stale *)
  u_sends : sockaddr -> nat -> bool;   (* which sends the system accepts, by address and socket *)
  u_file : bool; u_line : bool; u_psk : bool  (* whether the outputs work *)
}.

(** What can be observed from outside. *)
(** app_server.rs 479-485 [KeyOutputReason] *)
Inductive reason := Exchanged | Stale.
(** app_server.rs 403-406, 1279-1305: packets, key files with their lines on standard output, and keys given to brokers *)
Inductive effect :=
| Sent (socket : nat) (to : sockaddr) (m : bytes)
| KeyFile (path : nat) (key : bytes)
| KeyLine (path : nat) (peer : bytes) (why : reason)
| SetPsk (broker : nat) (peer : nat) (key : bytes).

(** app_server.rs 654-660 [Endpoint::send], 403-406 [send_to], 755-795: the endpoint with its new scouting
    state, the packets sent and the result.  A socket that does not exist makes the indexing
    of 391 panic. *)
Definition ep_send (ok : sockaddr -> nat -> bool) (socks : nat) (m : bytes) (e : endpoint)
  : endpoint * list effect * res app_err unit :=
  match e with
  | Bound s a =>
      if negb (Nat.ltb s socks) then (e, [], Panic)
      else if ok a s then (e, [Sent s a m], Ok tt) else (e, [], Err ASend)
  | Discovery st l =>
      let acc a s := match nth_error l a with Some x => ok x s | None => false end in
      let (t, r) := try_addrs acc (cycle_from (fst st) (length l)) (cycle_from (snd st) socks) in
      match r with
      | Some (a, s) =>
          (Discovery (next_scout_offset (length l) socks a s) l,
           match nth_error l a with Some x => [Sent s x m] | None => [] end, Ok tt)
      | None => (e, [], Err ASend)
      end
  end.

(** The endpoint of a peer, with scouting state updated in place.  app_server.rs 745-750, 241-245 *)
Definition put_endpoint (e : endpoint) (x : app_peer) : app_peer :=
  match ap_current x with
  | Some _ => set_current (Some e) x
  | None => set_initial (Some e) x
  end.

(** Calls of the engine are recorded, so that histories of the application give histories of
    the engine.  No code in /repo: a record of the calls of the engine in app_server.rs 1160-1237. *)
Definition calls := list (call * res err outcome).

(** app_server.rs 1125-1137 [tx_maybe_with] *)
Definition tx_maybe_with (u : turn) (p : nat) (o : op) (s : srv) (a : app)
  : app * calls * list effect * res app_err unit :=
  match nth_error (a_peers a) p with
  | None => (a, [], [], Panic)
  | Some x =>
      match ap_endpoint x with
      | None => (a, [], [], Ok tt)
      | Some e =>
          let c := {| c_now := fst (u_call u); c_coins := snd (u_call u); c_op := o |} in
          let (s', r) := exec P c s in
          let a := set_site (Product s') a in
          match r with
          | Ok (RSent m) =>
              match ep_send (u_sends u) (io_sockets (a_io a)) m e with
              | (e', t, q) => (set_peers (upd p (put_endpoint e' x) (a_peers a)) a, [(c, r)], t, q)
              end
          | Ok _ => (a, [(c, r)], [], Ok tt)     (* no such result *)
          | Err er => (a, [(c, r)], [], Err (AEngine er))
          | Panic => (a, [(c, r)], [], Panic)
          end
      end
  end.

(** app_server.rs 445-454 [set_psk] *)
Definition set_psk (u : turn) (p : nat) (key : bytes) (x : app_peer) (a : app) : list effect * res app_err unit :=
  match ap_broker x with
  | None => ([], Ok tt)
  | Some b =>
      match mget b (io_brokers (a_io a)) with
      | None => ([], Panic)                       (* unwrap *)
      | Some _ => if u_psk u then ([SetPsk b p key], Ok tt) else ([], Err ASetPsk)
      end
  end.

(** app_server.rs 1261-1308 [output_key] *)
Definition output_key (u : turn) (p : nat) (why : reason) (key : bytes) (s : srv) (a : app)
  : list effect * res app_err unit :=
  match nth_error (s_peers s) p with
  | None => ([], Panic)
  | Some sp =>
      match nth_error (a_peers a) p with
      | None => ([], Panic)
      | Some x =>
          match ap_outfile x with
          | None => set_psk u p key x a
          | Some f =>
              if negb (u_file u) then ([], Err AFile)
              else if negb (u_line u) then ([KeyFile f key], Err ALine)
              else let (t, r) := set_psk u p key x a in
                   (KeyFile f key :: KeyLine f (pidt P sp) why :: t, r)
          end
      end
  end.

(** app_server.rs 1196-1236: handling a datagram. *)
Definition receive (u : turn) (rx : bytes) (socket : nat) (from : sockaddr) (s : srv) (a : app)
  : app * calls * list effect * res app_err unit :=
  let o := if a_under_load a then OLoad rx (u_tx u) (endpoint_bytes (N.of_nat socket) from)
           else OMsg rx (u_tx u) in
  let c := {| c_now := fst (u_call u); c_coins := snd (u_call u); c_op := o |} in
  let (s', r) := exec P c s in
  let a := set_site (Product s') a in
  match r with
  | Panic => (a, [(c, r)], [], Panic)
  | Err _ => (a, [(c, r)], [], Ok tt)            (* logged *)
  | Ok (RHandled h) =>
      let '(t, q) :=
        match mr_resp h with
        | None => ([], Ok tt)
        | Some m => let '(_, t, q) := ep_send (u_sends u) (io_sockets (a_io a)) m (Bound socket from) in (t, q)
        end in
      match q with
      | Ok _ =>
          match mr_exchanged h with
          | None => (a, [(c, r)], t, Ok tt)
          | Some p =>
              match nth_error (a_peers a) p with
              | None => (a, [(c, r)], t, Panic)
              | Some x =>
                  let a := set_peers (upd p (set_current (Some (Bound socket from)) x) (a_peers a)) a in
                  let c2 := {| c_now := fst (u_call u); c_coins := snd (u_call u); c_op := OOsk p |} in
                  match exec P c2 s' with
                  | (_, Ok (RKey k)) =>
                      let (t2, q2) := output_key u p Exchanged k s' a in
                      (a, [(c, r); (c2, Ok (RKey k))], t ++ t2, q2)
                  | (_, Err e) => (a, [(c, r); (c2, Err e)], t, Err (AEngine e))
                  | (_, r2) => (a, [(c, r); (c2, r2)], t, Panic)
                  end
              end
          end
      | _ => (a, [(c, r)], t, q)
      end
  | Ok _ => (a, [(c, r)], [], Ok tt)             (* no such result *)
  end.

(** app_server.rs 1181-1193 *)
Definition delete_key (u : turn) (p : nat) (s : srv) (a : app) : app * calls * list effect * res app_err unit :=
  let (t, r) := output_key u p Stale (u_random u) s a in
  match r with
  | Ok _ =>
      match nth_error (a_peers a) p with
      | None => (a, [], t, Panic)
      | Some x => (set_peers (upd p (set_current (discovery_from_multiple_sources (ap_current x) (ap_initial x)) x)
                                  (a_peers a)) a, [], t, Ok tt)
      end
  | _ => (a, [], t, r)
  end.

(** The effect of [try_recv] on the rest of the application: registrations (AppIo.v), requests
    for a keypair (Builder.v), load status (AppRecv.v).  A panic there is one of the server.  app_server.rs 1473-1478, 1512-1522 *)
Fixpoint io_ops (l : list io_op) (x : io) : io * bool :=
  match l with
  | [] => (x, false)
  | o :: l' => match io_exec o x with (x', Panic) => (x', true) | (x', _) => io_ops l' x' end
  end.
(** app_server.rs 1516-1522 through api_handler.rs 139-231 *)
Fixpoint supplies (l : list (draws * list file)) (c : site) : site * bool :=
  match l with
  | [] => (c, false)
  | (d, fds) :: l' =>
      match supply_keypair P d fds c with (c', Panic) => (c', true) | (c', _) => supplies l' c' end
  end.

(** app_server.rs 1355-1365: [Duration::from_secs_f64] panics on a negative timeout, and with a timeout of
    zero nothing is looked at. *)
Definition app_recv (timeout : time) (u : turn) (a : app) : app * res app_err recv :=
  if (timeout <? 0)%Z then (a, Panic)
  else if (timeout =? 0)%Z then (a, Ok RNothing)
  else
    let (x, b1) := io_ops (u_ops u) (a_io a) in
    let (c, b2) := supplies (u_supply u) (a_site a) in
    let a := set_load (u_load u) (set_site c (set_io x a)) in
    if b1 || b2 then (a, Panic)
    else match u_recv u with RFailed => (a, Err ARecv) | r => (a, Ok r) end.

(** One turn ([UNENDING], 1334, is eight hours): app_server.rs 1319-1342, one round of the loop in [poll], and 1160-1237, what the event loop
    does with its result.  [Ok true] means that the loop ends. *)
Definition app_turn (u : turn) (a : app) : app * calls * list effect * res app_err bool :=
  let goon (x : app * calls * list effect * res app_err unit) (cs : calls) :=
    let '(a, cs', t, r) := x in
    (a, cs ++ cs', t, match r with Ok _ => Ok false | Err e => Err e | Panic => Panic end) in
  let do_io timeout cs a :=
    match app_recv timeout u a with
    | (a, Ok RTerminate) => (a, cs, [], Ok true)
    | (a, Ok (RDatagram rx sock from)) =>
        match a_site a with
        | Product s => goon (receive u rx sock from s a) cs
        | _ => (a, cs, [], Ok false)
        end
    | (a, Ok _) => (a, cs, [], Ok false)
    | (a, Err e) => (a, cs, [], Err e)
    | (a, Panic) => (a, cs, [], Panic)
    end in
  match a_site a with
  | Product s =>
      let c := {| c_now := fst (u_poll u); c_coins := snd (u_poll u); c_op := OPoll |} in
      let (s', r) := exec P c s in
      let a := set_site (Product s') a in
      match r with
      | Ok (RPolled (SendInitiation p)) => goon (tx_maybe_with u p (OInitiate p (u_tx u)) s' a) [(c, r)]
      | Ok (RPolled (SendRetransmission p)) => goon (tx_maybe_with u p (ORetransmit p (u_tx u)) s' a) [(c, r)]
      | Ok (RPolled (DeleteKey p)) => goon (delete_key u p s' a) [(c, r)]
      | Ok (RPolled (Sleep t)) => do_io t [(c, r)] a
      | Ok _ => (a, [(c, r)], [], Ok false)      (* no such result *)
      | Err e => (a, [(c, r)], [], Err (AEngine e))
      | Panic => (a, [(c, r)], [], Panic)
      end
  | _ => do_io UNENDING [] a
  end.

(** * Histories *)

(** Peers are added, at the start or between turns, and turns are taken; a history stops after
    a panic.  An error ends the current run of the event loop; [event_loop] (app_server.rs 1080-1114) starts
    it again, so the history goes on. *)
Inductive app_op :=
| PAdd (pp : peer_params) (outfile broker : option nat) (host : option (option (list sockaddr)))
| PTurn (u : turn).
Inductive app_out :=
| Added (r : res app_err nat)
| Turned (cs : calls) (t : list effect) (r : res app_err bool).

(** No code in /repo: one step of a history. *)
Definition app_exec (o : app_op) (a : app) : app * app_out :=
  match o with
  | PAdd pp f b h => let (a', r) := app_add_peer pp f b h a in (a', Added r)
  | PTurn u => let '(a', cs, t, r) := app_turn u a in (a', Turned cs t r)
  end.

(** No code in /repo: a panic ends the process. *)
Definition panicked (o : app_out) : bool :=
  match o with Added Panic | Turned _ _ Panic => true | _ => false end.

(** Random draws have the sizes of their types, the transmit buffer is a [MsgBuf] and
    datagrams come in through the sockets there are.  rosenpass/src/msgs.rs 29, basic_types.rs 35 [MsgBuf], app_server.rs 1489 *)
Definition turn_ok (u : turn) (a : app) : Prop :=
  wf_coins (snd (u_poll u)) /\ wf_coins (snd (u_call u)) /\ 1100 <= length (u_tx u) /\
  match u_recv u with RDatagram _ s _ => s < io_sockets (a_io a) | _ => True end.
(** No code in /repo: the assumption for one step. *)
Definition app_valid (o : app_op) (a : app) : Prop :=
  match o with PAdd _ _ _ _ => True | PTurn u => turn_ok u a end.

(** No code in /repo: histories. *)
Inductive app_run : app -> list (app_op * app_out) -> app -> Prop :=
| ar_nil a : app_run a [] a
| ar_cons a o a1 r h a2 :
    app_valid o a -> app_exec o a = (a1, r) -> panicked r = false -> app_run a1 h a2 ->
    app_run a ((o, r) :: h) a2.

(** app_server.rs 804-944 [AppServer::new]: a server with the given keypair, or without one if it is to come
    through the API (916-919), and [n] sockets. *)
Definition app_new (kp : option (bytes * bytes)) (d : draws) (n : nat) : app :=
  {| a_site := match kp with
               | Some (sk, pk) => Product (server_new sk pk (dr_b0 d) (dr_b1 d) (dr_k0 d) (dr_k1 d) (dr_hk d))
               | None => Building builder_empty
               end;
     a_peers := []; a_io := io_new n; a_under_load := false |}.

End WithPrims.

(** * The outer loop *)

(** app_server.rs 1080-1114 [event_loop]: [runs] tells for each run of the inner loop how many turns it took
    and whether it ended well.  The result: the sleeps before restarts (in units of [INIT_SLEEP] =
    10 ms) and [Some true] if it ended well, [Some false] if it gave up, [None] if [runs] ends
    before that. *)
Definition MAX_FAILURES : Z := 10.
Fixpoint event_loop (failure_cnt : Z) (runs : list (nat * bool)) : list Z * option bool :=
  match runs with
  | [] => ([], None)
  | (_, true) :: _ => ([], Some true)
  | (_, false) :: l =>
      let msgs_processed := 0%Z in
      let cnt := if (0 <? msgs_processed)%Z then 0%Z else (failure_cnt + 1)%Z in
      let tries_left := (MAX_FAILURES - (cnt - 1))%Z in
      if (0 <? tries_left)%Z
      then let (w, r) := event_loop cnt l in ((2 ^ (cnt - 1))%Z :: w, r)
      else ([], Some false)
  end.

(** The outer loop over single turns, from the count of failures so far.  app_server.rs 1080-1114 *)
Inductive loop_end := StillRunning | EndedWell | GaveUp | Crashed.
Section Loop.
Context (P : prims).
(** app_server.rs 1080-1114 [event_loop] with 1139-1238 inside *)
Fixpoint app_loop (failure_cnt : Z) (us : list turn) (a : app) : app * list effect * loop_end :=
  match us with
  | [] => (a, [], StillRunning)
  | u :: l =>
      let '(a, _, t, r) := app_turn P u a in
      match r with
      | Panic => (a, t, Crashed)
      | Ok true => (a, t, EndedWell)
      | Ok false => let '(a, t', e) := app_loop failure_cnt l a in (a, t ++ t', e)
      | Err _ =>
          let cnt := (failure_cnt + 1)%Z in
          if (0 <? MAX_FAILURES - (cnt - 1))%Z
          then let '(a, t', e) := app_loop cnt l a in (a, t ++ t', e)
          else (a, t, GaveUp)
      end
  end.
End Loop.
