(** The socket handler of the broker with any number of clients: wireguard-broker/src/bin/socket_handler.rs, its tasks and the
    privileged process (bin/priviledged.rs) under every schedule. *)
From Verif Require Import Base Wire Broker.

(** socket_handler.rs 155-210 [on_accept], where the task of a connection is: it reads a request (168-184); it waits for room in the queue
    (188-193); it waits for the reply (196); it has the reply; it writes it (199-203); it has ended, with an error or a panic. *)
Inductive task := TRead | TQueue (m : bytes) | TWait | TReplied (r : bytes) | TWrite (rest : bytes) | TEnded.

(** socket_handler.rs 145 [accept]: a connection.  What the client has written and the task has not read; whether the client will write
    no more; whether it has closed the connection, so that writing to it fails; the task; what was written to the client *)
Record conn := { c_in : bytes; c_eof : bool; c_gone : bool; c_task : task; c_out : bytes }.

(** socket_handler.rs 109-139, where [direct_broker_process] is: it waits for a request; it waits for the response to a request of a
    connection; it has ended (73-76: its task panics, which drops the queue and the pipes and leaves the process running) *)
Inductive btask := BIdle | BReply (c : nat) | BGone.

(** socket_handler.rs 69 [mpsc::channel] *)
Definition QUEUE_SIZE : nat := 100.

(** socket_handler.rs 45-61, 69, 101-108: the connections in the order in which they were accepted, the queue of requests with the
    connections that wait, the task that talks to the privileged process, the two pipes, the state of WireGuard, and whether the privileged process runs *)
Record handler_st (St : Type) := {
  h_conns : list conn; h_queue : list (nat * bytes); h_broker : btask;
  h_stdin : bytes; h_stdout : bytes; h_inner : St; h_alive : bool }.
Arguments h_conns {St} h. Arguments h_queue {St} h. Arguments h_broker {St} h. Arguments h_stdin {St} h.
Arguments h_stdout {St} h. Arguments h_inner {St} h. Arguments h_alive {St} h.

(** No code in /repo: what happens.  A client connects (accepted at 145-152), writes, will write no more, or closes its connection; the task of a connection
    goes on, and if it writes, at most [k] bytes (and one at least) are taken; the task for the privileged process goes on; the
    privileged process goes on; the privileged process dies. *)
Inductive hev := EConnect | ESend (c : nat) (d : bytes) | EShut (c : nat) | EClose (c : nat)
  | ETask (c : nat) (k : nat) | EBroker | EPriv | EPrivDies.

Section Handler.
Context (utf8 : bytes -> bool) {St E : Type} (inner : bconfig -> St -> St * option E) (conv : E -> psk_err).
Notation hst := (handler_st St).

(** No code in /repo: changes of single fields *)
Definition with_conns (h : hst) (cs : list conn) : hst :=
  {| h_conns := cs; h_queue := h_queue h; h_broker := h_broker h; h_stdin := h_stdin h; h_stdout := h_stdout h; h_inner := h_inner h; h_alive := h_alive h |}.
Definition with_task (c : conn) (t : task) : conn :=
  {| c_in := c_in c; c_eof := c_eof c; c_gone := c_gone c; c_task := t; c_out := c_out c |}.
Fixpoint set_nth {A} (n : nat) (x : A) (l : list A) : list A :=
  match l, n with
  | [], _ => []
  | _ :: l, O => x :: l
  | y :: l, S n => y :: set_nth n x l
  end.

(** socket_handler.rs 168-184, [on_accept] reads a request.  [read_exact] takes what is there piece by piece; here the bytes of a
    request are taken at once when all of them are there. *)
Definition read_request (c : conn) : conn :=
  match accept_request (c_in c) with
  | Some (m, rest) => {| c_in := rest; c_eof := c_eof c; c_gone := c_gone c; c_task := TQueue m; c_out := c_out c |}
  | None =>
      if (Nat.leb 8 (length (c_in c)) && N.ltb (N.of_nat REQUEST_MSG_BUFFER_SIZE) (le_dec (firstn 8 (c_in c))))%bool
      then with_task c TEnded
      else if c_eof c then with_task c TEnded else c
  end.

(** socket_handler.rs 166-208, the task of connection number [i] goes on.  [stream.flush] (204) has nothing to do. *)
Definition task_step (i k : nat) (c : conn) (h : hst) : hst :=
  let put c := with_conns h (set_nth i c (h_conns h)) in
  match c_task c with
  | TRead => put (read_request c)
  | TQueue m =>
      match h_broker h with
      | BGone => put (with_task c TEnded)
      | _ =>
          if Nat.ltb (length (h_queue h)) QUEUE_SIZE
          then {| h_conns := set_nth i (with_task c TWait) (h_conns h); h_queue := h_queue h ++ [(i, m)]; h_broker := h_broker h;
                  h_stdin := h_stdin h; h_stdout := h_stdout h; h_inner := h_inner h; h_alive := h_alive h |}
          else h
      end
  | TWait => match h_broker h with BGone => put (with_task c TEnded) | _ => h end
  | TReplied r => put (with_task c (TWrite (le_enc 8 (N.of_nat (length r)) ++ r)))
  | TWrite [] => put (with_task c TRead)
  | TWrite rest =>
      if c_gone c then put (with_task c TEnded)
      else put {| c_in := c_in c; c_eof := c_eof c; c_gone := c_gone c; c_task := TWrite (skipn (S k) rest); c_out := c_out c ++ firstn (S k) rest |}
  | TEnded => h
  end.

(** socket_handler.rs 73-76, after an error of [direct_broker_process]: the queue and the ends of the pipes are dropped *)
Definition broker_gone (h : hst) : hst :=
  {| h_conns := h_conns h; h_queue := []; h_broker := BGone; h_stdin := h_stdin h; h_stdout := []; h_inner := h_inner h; h_alive := h_alive h |}.

(** socket_handler.rs 110-138, [direct_broker_process] goes on.  The request is written at once; the response is read when all of it is there. *)
Definition broker_step (h : hst) : hst :=
  match h_broker h with
  | BIdle =>
      match h_queue h with
      | [] => h
      | (c, m) :: q =>
          if h_alive h
          then {| h_conns := h_conns h; h_queue := q; h_broker := BReply c; h_stdin := h_stdin h ++ le_enc 8 (N.of_nat (length m)) ++ m;
                  h_stdout := h_stdout h; h_inner := h_inner h; h_alive := h_alive h |}
          else broker_gone h
      end
  | BReply c =>
      if Nat.ltb (length (h_stdout h)) 8 then (if h_alive h then h else broker_gone h)
      else
        let len := le_dec (firstn 8 (h_stdout h)) in
        let rest := skipn 8 (h_stdout h) in
        if N.ltb (N.of_nat RESPONSE_MSG_BUFFER_SIZE) len then broker_gone h
        else
          let k := N.to_nat len in
          if Nat.ltb (length rest) k then (if h_alive h then h else broker_gone h)
          else
            match nth_error (h_conns h) c with
            | Some co =>
                match c_task co with
                | TWait =>
                    {| h_conns := set_nth c (with_task co (TReplied (firstn k rest))) (h_conns h); h_queue := h_queue h; h_broker := BIdle;
                       h_stdin := h_stdin h; h_stdout := skipn k rest; h_inner := h_inner h; h_alive := h_alive h |}
                | _ => broker_gone h
                end
            | None => broker_gone h
            end
  | BGone => h
  end.

(** priviledged.rs 64-94, the privileged process goes on.  A request is taken when all of it is there; at the end of its input
    and after a request that is too long the process ends. *)
Definition priv_go (h : hst) : hst :=
  let dead := {| h_conns := h_conns h; h_queue := h_queue h; h_broker := h_broker h; h_stdin := []; h_stdout := h_stdout h; h_inner := h_inner h; h_alive := false |} in
  if h_alive h then
    match accept_request (h_stdin h) with
    | Some (m, rest) =>
        let (s, o) := priv_step utf8 inner conv m (h_inner h) in
        {| h_conns := h_conns h; h_queue := h_queue h; h_broker := h_broker h; h_stdin := rest;
           h_stdout := match h_broker h with BGone => [] | _ => h_stdout h ++ match o with Some o => o | None => [] end end;
           h_inner := s; h_alive := match h_broker h, o with BGone, Some _ => false | _, _ => true end |}
    | None =>
        if (Nat.leb 8 (length (h_stdin h)) && N.ltb (N.of_nat REQUEST_MSG_BUFFER_SIZE) (le_dec (firstn 8 (h_stdin h))))%bool
        then dead
        else match h_broker h with BGone => dead | _ => h end
    end
  else h.

(** No code in /repo: one step *)
Definition hstep (h : hst) (e : hev) : hst :=
  let change i f := match nth_error (h_conns h) i with Some c => with_conns h (set_nth i (f c) (h_conns h)) | None => h end in
  match e with
  | EConnect => with_conns h (h_conns h ++ [{| c_in := []; c_eof := false; c_gone := false; c_task := TRead; c_out := [] |}])
  | ESend i d => change i (fun c => {| c_in := c_in c ++ d; c_eof := c_eof c; c_gone := c_gone c; c_task := c_task c; c_out := c_out c |})
  | EShut i => change i (fun c => {| c_in := c_in c; c_eof := true; c_gone := c_gone c; c_task := c_task c; c_out := c_out c |})
  | EClose i => change i (fun c => {| c_in := c_in c; c_eof := true; c_gone := true; c_task := c_task c; c_out := c_out c |})
  | ETask i k => match nth_error (h_conns h) i with Some c => task_step i k c h | None => h end
  | EBroker => broker_step h
  | EPriv => priv_go h
  | EPrivDies => {| h_conns := h_conns h; h_queue := h_queue h; h_broker := h_broker h; h_stdin := []; h_stdout := h_stdout h; h_inner := h_inner h; h_alive := false |}
  end.
(** No code in /repo: a client writes to a connection that there is, and not after it has said that it will write no more. *)
Definition hcan (h : hst) (e : hev) : Prop :=
  match e with
  | ESend i _ => exists c, nth_error (h_conns h) i = Some c /\ c_eof c = false
  | _ => True
  end.
(** No code in /repo: histories *)
Inductive hhist : hst -> list hev -> hst -> Prop :=
| hhist_nil h : hhist h [] h
| hhist_cons h e l h' : hcan h e -> hhist (hstep h e) l h' -> hhist h (e :: l) h'.
(** socket_handler.rs 63-83: the handler when it has started the privileged process *)
Definition hstart (s : St) : hst :=
  {| h_conns := []; h_queue := []; h_broker := BIdle; h_stdin := []; h_stdout := []; h_inner := s; h_alive := true |}.
End Handler.
