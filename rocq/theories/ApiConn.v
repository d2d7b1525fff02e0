(** A connection to the API: rosenpass/src/api/mio/connection.rs.  Line numbers without a file name
    refer to this file. *)
From Verif Require Import Base ConstTime Prims HashDomains Wire Server Protocol Wp Inv Rules Calls PollRules System
  Builder AppIo Lpe Api.

(** connection.rs 44-45 *)
Definition BUFFER : nat := 4096.
(** boilerplate/payload.rs:11 *)
Definition MAX_REQUEST_FDS : nat := 2.

(** connection.rs 49-65; whether the buffers are stolen is not modelled: they are returned before anyone looks. *)
Record xconn := { x_dec : dec; x_fds : list fdesc; x_enc : enc; x_bad : bool }.

(** What the client sends: bytes, and with each of them any number of file descriptors.  No code in /repo: the peer of connection.rs 60 [io]. *)
Definition stream := list (byte * list fdesc).
(** No code in /repo: the bytes of it. *)
Definition sbytes (s : stream) : bytes := map fst s.
(** No code in /repo: the descriptors of it. *)
Definition sfds (s : stream) : list fdesc := concat (map snd s).

(** connection.rs 70-94 *)
Definition conn_new : xconn :=
  {| x_dec := dec_new (zeros BUFFER); x_fds := []; x_enc := fst (from_buffer (zeros BUFFER)); x_bad := false |}.

(** connection.rs 98-105 [should_close] *)
Definition should_close (x : xconn) : bool :=
  x_bad x && match exhausted (x_enc x) with Ok b => b | _ => false end.

(** util/src/length_prefix_encoding/encoder.rs:579-586 [zeroize] *)
Definition enc_zeroize (e : enc) : enc * res enc_err unit :=
  enc_clear {| e_buf := zeros (length (e_buf e)); e_header := zeros (length (e_header e)); e_pos := 0 |}.

(** What can go wrong with a connection: its socket, or the handler of a request.  connection.rs 131-278 *)
Inductive conn_err (E : Type) := CWrite (k : io_kind) | CRead (k : io_kind) | CHandler (x : E) | CTooLong.
Arguments CWrite {E} k. Arguments CRead {E} k. Arguments CHandler {E} x. Arguments CTooLong {E}.

(** connection.rs 184-211, the loop of [flush_write_buffer], driven by what the writes to the socket do; after
    these events the socket would block.  Also returns the bytes written. *)
Fixpoint flush_loop {E} (vs : list wr_ev) (e : enc) : enc * bytes * res (conn_err E) (option unit) :=
  match vs with
  | [] => (e, [], Ok None)
  | v :: vs =>
      match write_to_stdio e v with
      | (e, out, Ok (_, true)) =>
          match enc_zeroize e with
          | (e, Ok _) => (e, out, Ok (Some tt))
          | (e, _) => (e, out, Panic)
          end
      | (e, out, Ok (O, false)) => (e, out, Ok None)
      | (e, out, Ok (_, false)) => let '(e, out', r) := flush_loop vs e in (e, out ++ out', r)
      | (e, out, Err (EIo KWouldBlock)) => (e, out, Ok None)
      | (e, out, Err (EIo KInterrupted)) => let '(e, out', r) := flush_loop vs e in (e, out ++ out', r)
      | (e, out, Err (EIo k)) => (e, out, Err (CWrite k))
      | (e, out, _) => (e, out, Panic)
      end
  end.

(** connection.rs 176-212 [flush_write_buffer] *)
Definition flush_write_buffer {E} (vs : list wr_ev) (x : xconn) : xconn * bytes * res (conn_err E) (option unit) :=
  match exhausted (x_enc x) with
  | Ok true => (x, [], Ok (Some tt))
  | Ok false =>
      let '(e, out, r) := flush_loop vs (x_enc x) in
      ({| x_dec := x_dec x; x_fds := x_fds x; x_enc := e; x_bad := x_bad x |}, out, r)
  | _ => (x, [], Panic)
  end.

(** One call of [read] of [ReadWithFileDescriptors], util/src/mio/uds_recv_fd.rs:139-185: it may deliver
    bytes with their file descriptors, of which as many are kept as there are free slots; it may
    fail; or it may deliver bytes and fail to claim the file descriptors that came with them. *)
Inductive rv_ev := VRead (e : rd_ev) | VClaim (k : nat).

(** connection.rs 236-239; also returns what is left of the stream.  Simplification: when claiming fails, the
    bytes read are lost, and they are not shown in the part of the read buffer that is not yet in use. *)
Definition conn_read (v : rv_ev) (x : xconn) (src : stream) : xconn * stream * res rd_err (nat * option bytes) :=
  match v with
  | VRead e =>
      let '(d, rest, r) := read_from_stdio (x_dec x) e (sbytes src) in
      let n := length src - length rest in
      let fds := x_fds x ++ firstn (MAX_REQUEST_FDS - length (x_fds x)) (sfds (firstn n src)) in
      ({| x_dec := d; x_fds := fds; x_enc := x_enc x; x_bad := x_bad x |}, skipn n src, r)
  | VClaim k =>
      let '(d, _, r) := read_from_stdio (x_dec x) (RFail KOther) (sbytes src) in
      (x, match r with Err (RIo _) => skipn k src | _ => src end, r)
  end.

(** connection.rs 254, 273 *)
Definition set_bad (x : xconn) : xconn :=
  {| x_dec := x_dec x; x_fds := x_fds x; x_enc := x_enc x; x_bad := true |}.

(** connection.rs 223-277, the loop of [recv]; after these events the socket would block. *)
Fixpoint recv_loop {E} (vs : list rv_ev) (x : xconn) (src : stream) : xconn * stream * res (conn_err E) (option unit) :=
  match conn_read (match vs with v :: _ => v | [] => VRead (RFail KWouldBlock) end) x src with
  | (x, src, Ok (_, Some _)) => (x, src, Ok (Some tt))
  | (x, src, Err TooLarge) => (set_bad x, src, Ok None)
  | (x, src, Ok (O, _)) => (x, src, Ok None)
  | (x, src, Err (RIo KWouldBlock)) => (x, src, Ok None)
  | (x, src, Ok (S _, _)) | (x, src, Err (RIo KInterrupted)) =>
      match vs with [] => (x, src, Ok None) | _ :: vs => recv_loop vs x src end
  | (x, src, Err (RIo k)) => (set_bad x, src, Err (CRead k))
  | (x, src, Panic) => (x, src, Panic)
  end.

(** connection.rs 215-278 [recv] *)
Definition conn_recv {E} (vs : list rv_ev) (x : xconn) (src : stream) : xconn * stream * res (conn_err E) (option unit) :=
  match exhausted (x_enc x) with
  | Ok ex => if negb ex || x_bad x then (x, src, Ok None) else recv_loop vs x src
  | _ => (x, src, Panic)
  end.

Section Handler.
(** The application, and what it does with a request (server.rs:178-216): it is given the request,
    the file descriptors and the response buffer. *)
Context {W E : Type}.
Context (H : bytes -> list fdesc -> bytes -> W -> W * list fdesc * bytes * res E nat).

(** A call of the application: the request, its file descriptors, the state of the application
    before and after, and the response.  No code in /repo: a record of connection.rs 164. *)
Record entry := { en_req : bytes; en_fds : list fdesc; en_before : W; en_after : W; en_answer : res E bytes }.

(** connection.rs 152-173 [handle_incoming_message] *)
Definition handle_incoming (x : xconn) (w : W) : xconn * W * list entry * res (conn_err E) (option unit) :=
  match exhausted (x_enc x), dec_message (x_dec x) with
  | Ok true, Ok (Some req) =>
      let '(w', fds, buf, r) := H req (x_fds x) (e_buf (x_enc x)) w in
      let e := {| e_buf := buf; e_header := e_header (x_enc x); e_pos := e_pos (x_enc x) |} in
      let log a := [{| en_req := req; en_fds := x_fds x; en_before := w; en_after := w'; en_answer := a |}] in
      let stay e := {| x_dec := x_dec x; x_fds := fds; x_enc := e; x_bad := x_bad x |} in
      match r with
      | Ok n =>
          match restart_with (N.of_nat n) e with
          | (e, Ok _) => ({| x_dec := dec_clear (x_dec x); x_fds := []; x_enc := e; x_bad := x_bad x |}, w',
                          log (Ok (firstn n buf)), Ok (Some tt))
          | (e, Err _) => (stay e, w', log (Ok (firstn n buf)), Err CTooLong)
          | (e, Panic) => (stay e, w', log (Ok (firstn n buf)), Panic)
          end
      | Err y => (stay e, w', log (Err y), Err (CHandler y))
      | Panic => (stay e, w', log Panic, Panic)
      end
  | _, _ => (x, w, [], Panic)
  end.

(** What happens around one poll: what the rest of the program has done to the application since
    the last one, and what the socket does in the first flush, in receiving and in the second flush.  No code in /repo: the environment of connection.rs 131-149. *)
Record poll_ev := { pe_app : W -> W; pe_flush : list wr_ev; pe_recv : list rv_ev; pe_begin : list wr_ev }.

(** The state of a connection and of what is around it: the part of the stream not yet read, the
    bytes written, the application, and the calls made of it.  No code in /repo: connection.rs 59-65 with what is around it. *)
Record cstate := { c_conn : xconn; c_in : stream; c_out : bytes; c_world : W; c_log : list entry }.

(** connection.rs 70-94 on a new socket *)
Definition cst_start (s : stream) (w : W) : cstate :=
  {| c_conn := conn_new; c_in := s; c_out := []; c_world := w; c_log := [] |}.

(** connection.rs 131-149 [poll] *)
Definition conn_poll (v : poll_ev) (s : cstate) : cstate * res (conn_err E) unit :=
  let upd x i o w l := {| c_conn := x; c_in := i; c_out := c_out s ++ o; c_world := w; c_log := c_log s ++ l |} in
  let w0 := pe_app v (c_world s) in
  match flush_write_buffer (pe_flush v) (c_conn s) with
  | (x, o1, Ok (Some _)) =>
      match conn_recv (pe_recv v) x (c_in s) with
      | (x, i, Ok (Some _)) =>
          match handle_incoming x w0 with
          | (x, w, l, Ok (Some _)) =>
              match flush_write_buffer (pe_begin v) x with
              | (x, o2, Ok _) => (upd x i (o1 ++ o2) w l, Ok tt)
              | (x, o2, Err y) => (upd x i (o1 ++ o2) w l, Err y)
              | (x, o2, Panic) => (upd x i (o1 ++ o2) w l, Panic)
              end
          | (x, w, l, Ok None) => (upd x i o1 w l, Ok tt)
          | (x, w, l, Err y) => (upd x i o1 w l, Err y)
          | (x, w, l, Panic) => (upd x i o1 w l, Panic)
          end
      | (x, i, Ok None) => (upd x i o1 w0 [], Ok tt)
      | (x, i, Err y) => (upd x i o1 w0 [], Err y)
      | (x, i, Panic) => (upd x i o1 w0 [], Panic)
      end
  | (x, o1, Ok None) => (upd x (c_in s) o1 w0 [], Ok tt)
  | (x, o1, Err y) => (upd x (c_in s) o1 w0 [], Err y)
  | (x, o1, Panic) => (upd x (c_in s) o1 w0 [], Panic)
  end.

(** Any number of polls, with their results; a panic ends them.  No code in /repo: calls of connection.rs 131-149. *)
Fixpoint conn_polls (vs : list poll_ev) (s : cstate) : cstate * list (res (conn_err E) unit) :=
  match vs with
  | [] => (s, [])
  | v :: vs =>
      match conn_poll v s with
      | (s, Panic) => (s, [Panic])
      | (s, r) => let (s, rs) := conn_polls vs s in (s, r :: rs)
      end
  end.

End Handler.
Arguments entry : clear implicits. Arguments poll_ev : clear implicits. Arguments cstate : clear implicits.

(** The application, with what the system and the random number generator do for the next request
    (api_handler.rs:10-79 [ApiHandlerContext]). *)
Definition api_call P (req : bytes) (fds : list fdesc) (buf : bytes) (w : api_env * world)
  : (api_env * world) * list fdesc * bytes * res api_err nat :=
  let '(w', fds, buf, r) := handle_message P (fst w) req fds buf (snd w) in ((fst w, w'), fds, buf, r).
