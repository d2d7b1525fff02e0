(** The PSK broker: wireguard-broker/src.  The messages between its client and its server, the
    client used by the server process, the privileged broker with the netlink broker inside it, and the
    socket handler between them. *)
From Verif Require Import Base Wire Lpe.

(** * Messages *)

(** lib.rs:42-45 *)
Definition WG_PEER_LEN : nat := 32.

(** lib.rs:71-80 [SerializedBrokerConfig]; [Public<32>] and [Secret<32>] are byte strings, their
    length is a hypothesis where it matters. *)
Record bconfig := { g_iface : bytes; g_peer : bytes; g_psk : bytes; g_extra : bytes }.

(** api/msgs.rs:9-14 *)
Definition ENVELOPE_OVERHEAD : nat := 4.
Definition REQUEST_MSG_BUFFER_SIZE : nat := ENVELOPE_OVERHEAD + 32 + 32 + 1 + 255.
Definition RESPONSE_MSG_BUFFER_SIZE : nat := ENVELOPE_OVERHEAD + 1.

(** api/msgs.rs:19-42, 89-91: offsets in [Envelope<SetPskRequest>] and [Envelope<SetPskResponse>] *)
Definition OFF_PAYLOAD : nat := 4.
Definition OFF_PSK : nat := OFF_PAYLOAD.
Definition OFF_PEER : nat := OFF_PSK + 32.
Definition OFF_SIZE : nat := OFF_PEER + 32.
Definition OFF_IFACE : nat := OFF_SIZE + 1.

(** api/msgs.rs:95-104 [SetPskError], [SetPskResult] *)
Inductive psk_err := InternalError | NoSuchInterface | NoSuchPeer.
Definition psk_result := option psk_err.

(** api/msgs.rs:114-119 [SetPskResponseReturnCode] with 168-180, [From<SetPskResult>], and the cast to u8 *)
Definition code_of (r : psk_result) : byte :=
  match r with
  | None => x00
  | Some InternalError => x01
  | Some NoSuchInterface => x02
  | Some NoSuchPeer => x03
  end.
(** api/msgs.rs:140-149 [try_from] followed by 156-165 [SetPskResult::from] *)
Definition of_code (b : byte) : option psk_result :=
  match b with
  | x00 => Some None
  | x01 => Some (Some InternalError)
  | x02 => Some (Some NoSuchInterface)
  | x03 => Some (Some NoSuchPeer)
  | _ => None
  end.

(** api/msgs.rs:198-227 [MsgType]: there is one *)
Definition SET_PSK : byte := x01.
Definition is_set_psk (b : byte) : bool := match b with x01 => true | _ => false end.

(** api/msgs.rs:65-74 [set_iface_bin] on the payload at its place in the message *)
Definition set_iface_bin (iface req : bytes) : option bytes :=
  if Nat.ltb (length iface) 256
  then let req := splice OFF_SIZE (le_enc 1 (N.of_nat (length iface))) req in
       let req := splice OFF_IFACE (zeros 255) req in
       Some (splice OFF_IFACE iface req)
  else None.

(** api/msgs.rs:46-49 [iface_bin] *)
Definition iface_bin (req : bytes) : bytes :=
  firstn (N.to_nat (le_dec (slice OFF_SIZE 1 req))) (slice OFF_IFACE 255 req).

Section Utf8.
(** What [std::str::from_utf8] accepts. *)
Context (utf8 : bytes -> bool).

(** * Client *)

(** api/client.rs:84-97 *)
Inductive set_err (E : Type) := SBroker | SIface | SIo (e : E).
Arguments SBroker {E}. Arguments SIface {E}. Arguments SIo {E} e.

(** api/client.rs:192-218 with api/config.rs 44-61, the message [set_psk] sends.  The view of the buffer as a message always exists, because
    the buffer has the right size. *)
Definition set_psk_request {E} (c : bconfig) : res (set_err E) bytes :=
  if utf8 (g_iface c)
  then let req := zeros REQUEST_MSG_BUFFER_SIZE in
       let req := splice 0 [SET_PSK] req in
       let req := splice OFF_PEER (g_peer c) req in
       let req := splice OFF_PSK (g_psk c) req in
       match set_iface_bin (g_iface c) req with
       | Some req => Ok req
       | None => Err SIface
       end
  else Err SBroker.

(** api/client.rs:169-182, what [poll_response] makes of a message; [None] stands for InvalidMessage. *)
Definition read_response (msg : bytes) : option psk_result :=
  match msg with
  | [] => None
  | b :: _ =>
      if is_set_psk b && Nat.eqb (length msg) RESPONSE_MSG_BUFFER_SIZE
      then of_code (nth OFF_PAYLOAD msg x00)
      else None
  end.

(** * Server *)

Section Inner.
(** A broker inside: lib.rs:52-58 [WireGuardBroker], and the conversion of its errors. *)
Context {S E : Type} (inner : bconfig -> S -> S * option E) (conv : E -> psk_err).

(** api/server.rs:97-127 [handle_set_psk] with api/config.rs 23-33  on the messages with their envelopes; [None] stands for InvalidMessage *)
Definition handle_set_psk (req res : bytes) (s : S) : S * bytes * option unit :=
  let iface := iface_bin req in
  if utf8 iface
  then let c := {| g_iface := iface; g_peer := slice OFF_PEER 32 req; g_psk := slice OFF_PSK 32 req; g_extra := [] |} in
       let (s, r) := inner c s in
       (s, splice OFF_PAYLOAD [code_of (option_map conv r)] res, Some tt)
  else (s, res, None).

(** api/server.rs:70-89 [handle_message]; [res] has its fixed size *)
Definition handle_message (req res : bytes) (s : S) : S * bytes * option nat :=
  match req with
  | [] => (s, res, None)
  | b :: _ =>
      if is_set_psk b && Nat.eqb (length req) REQUEST_MSG_BUFFER_SIZE
      then let res := splice 0 [SET_PSK] res in
           match handle_set_psk req res s with
           | (s, res, Some _) => (s, res, Some (length res))
           | (s, res, None) => (s, res, None)
           end
      else (s, res, None)
  end.

(** * The privileged broker: bin/priviledged.rs *)

(** How the loop of [main] ends: its input ends, possibly within a message, or announces a message
    that is too long.  wireguard-broker/src/bin/priviledged.rs 51-95 *)
Inductive priv_end := PEof | POversized (len : N).

(** priviledged.rs 76-93, one message *)
Definition priv_step (req : bytes) (s : S) : S * option bytes :=
  match handle_message req (zeros RESPONSE_MSG_BUFFER_SIZE) s with
  | (s, res, Some n) =>
      let out := firstn n res in (s, Some (le_enc 8 (N.of_nat (length out)) ++ out))
  | (s, _, None) => (s, None)
  end.

(** priviledged.rs 64-94, the loop of [main] over all of its input: the final state, what is written for each
    message, and the end.  Simplifications: writing to the output does not fail; [n] bounds the number of
    messages and is the length of the input. *)
Fixpoint priv_loop (n : nat) (input : bytes) (s : S) : S * list (option bytes) * priv_end :=
  match n with
  | O => (s, [], PEof)
  | Datatypes.S n =>
      if Nat.ltb (length input) 8 then (s, [], PEof)
      else
        let len := le_dec (firstn 8 input) in
        let input := skipn 8 input in
        if N.ltb (N.of_nat REQUEST_MSG_BUFFER_SIZE) len then (s, [], POversized len)
        else
          let k := N.to_nat len in
          if Nat.ltb (length input) k then (s, [], PEof)
          else
            let (s, o) := priv_step (firstn k input) s in
            let '(s, l, e) := priv_loop n (skipn k input) s in
            (s, o :: l, e)
  end.
Definition privileged (input : bytes) (s : S) : S * list (option bytes) * priv_end :=
  priv_loop (Datatypes.S (length input)) input s.

(** * The socket handler: bin/socket_handler.rs *)

(** socket_handler.rs 110-138, the loop of [direct_broker_process] over the queue of requests, each with the
    connection that waits for the reply; the process it talks to is the privileged broker.  It waits for one response
    per request; if none comes, it waits for ever ([false]).  A response comes framed and no longer than 5 bytes, so
    124-127 does not fail. *)
Fixpoint serve (queue : list (nat * bytes)) (s : S) : S * list (nat * bytes) * bool :=
  match queue with
  | [] => (s, [], true)
  | (c, req) :: q =>
      match priv_step req s with
      | (s, Some out) =>
          let '(s, l, b) := serve q s in (s, (c, out) :: l, b)
      | (s, None) => (s, [], false)
      end
  end.

End Inner.

(** socket_handler.rs 168-184, what [on_accept] reads from a connection: the next request, if it is complete and not too long, and the rest *)
Definition accept_request (input : bytes) : option (bytes * bytes) :=
  if Nat.ltb (length input) 8 then None
  else
    let len := le_dec (firstn 8 input) in
    let input := skipn 8 input in
    if N.ltb (N.of_nat REQUEST_MSG_BUFFER_SIZE) len then None
    else let k := N.to_nat len in
         if Nat.ltb (length input) k then None else Some (firstn k input, skipn k input).

(** * The netlink broker: brokers/netlink.rs *)

(** netlink.rs 56-63 [SetPskError] *)
Inductive nl_err := NlNoSuchInterface | NlNoSuchPeer | NlNetlink.

(** netlink.rs 102-109 [From<SetPskNetlinkError>] *)
Definition nl_conv (e : nl_err) : psk_err :=
  match e with NlNoSuchPeer => NoSuchPeer | _ => InternalError end.

(** The WireGuard devices in the kernel, each with its peers and their keys.  No code in /repo: what netlink.rs 154-189 talks to. *)
Definition wg_device := list (bytes * bytes).
(** No code in /repo: by the name of the interface. *)
Definition kernel := list (bytes * wg_device).
(** No code in /repo: equality of names and keys. *)
Definition byteseq (a b : bytes) : bool := if list_eq_dec Byte.byte_eq_dec a b then true else false.
(** No code in /repo: [get_device] of [wireguard_uapi], used at netlink.rs 164. *)
Definition wg_get (iface : bytes) (k : kernel) : option wg_device :=
  option_map snd (find (fun d => byteseq (fst d) iface) k).
(** [set_device] with one peer and WgPeerF::UpdateOnly  No code in /repo: used at netlink.rs 185. *)
Definition wg_set (iface peer psk : bytes) (k : kernel) : kernel :=
  map (fun d => if byteseq (fst d) iface
                then (fst d, map (fun p => if byteseq (fst p) peer then (peer, psk) else p) (snd d)) else d) k.

(** netlink.rs 154-186 [set_psk]; [ok] tells whether the second netlink call works; the first one fails
    if there is no such device. *)
Definition netlink_set_psk (ok : bool) (c : bconfig) (k : kernel) : kernel * option nl_err :=
  if utf8 (g_iface c)
  then match wg_get (g_iface c) k with
       | None => (k, Some NlNetlink)
       | Some d =>
           if existsb (fun p => byteseq (fst p) (g_peer c)) d
           then if ok then (wg_set (g_iface c) (g_peer c) (g_psk c) k, None) else (k, Some NlNetlink)
           else (k, Some NlNoSuchPeer)
       end
  else (k, Some NlNoSuchInterface).

(** * The client over a socket: brokers/mio_client.rs *)

(** mio_client.rs 132-136 [MioBrokerClientIo] *)
Record bclient := { b_dec : dec; b_enc : enc }.
(** mio_client.rs 143-156 [new] *)
Definition BBUF : nat := 4096.
Definition bclient_new : bclient := {| b_dec := dec_new (zeros BBUF); b_enc := fst (from_buffer (zeros BBUF)) |}.

(** mio_client.rs 233-335: what sending and receiving fail with *)
Inductive bio_err := BWrite (k : io_kind) | BRead (k : io_kind) | BTooLarge | BFlags.

(** mio_client.rs 321-335 [flush]: one successful write, after any number of interruptions; after the given
    events the socket would block.  Also returns the bytes written. *)
Fixpoint bflush (vs : list wr_ev) (e : enc) : enc * bytes * res bio_err unit :=
  match write_to_stdio e (match vs with v :: _ => v | [] => WFail KWouldBlock end) with
  | (e, out, Ok _) => (e, out, Ok tt)
  | (e, out, Err (EIo KWouldBlock)) => (e, out, Ok tt)
  | (e, out, Err (EIo KInterrupted)) => match vs with [] => (e, out, Ok tt) | _ :: vs => bflush vs e end
  | (e, out, Err (EIo k)) => (e, out, Err (BWrite k))
  | (e, out, _) => (e, out, Panic)
  end.

(** mio_client.rs 304-313, the loop of [flush_blocking]: the descriptor flags it has set do not make the socket block, so it goes on when
    the socket would block; [None]: it is still running after these events. *)
Fixpoint bflush_loop (vs : list wr_ev) (e : enc) : enc * bytes * option (res bio_err unit) :=
  match exhausted e with
  | Ok true => (e, [], Some (Ok tt))
  | Ok false =>
      match vs with
      | [] => (e, [], None)
      | v :: vs =>
          match write_to_stdio e v with
          | (e, out, Ok _) => let '(e, o, r) := bflush_loop vs e in (e, out ++ o, r)
          | (e, out, Err (EIo KWouldBlock)) | (e, out, Err (EIo KInterrupted)) =>
              let '(e, o, r) := bflush_loop vs e in (e, out ++ o, r)
          | (e, out, Err (EIo k)) => (e, out, Some (Err (BWrite k)))
          | (e, out, _) => (e, out, Some Panic)
          end
      end
  | _ => (e, [], Some Panic)
  end.

(** What the system does in one [send_msg]: in the first flush, whether the descriptor flags can be
    read and set, in the blocking loop, and in the last flush.  mio_client.rs 233-319 *)
Record send_ev := { sv_first : list wr_ev; sv_flags : bool; sv_block : list wr_ev; sv_last : list wr_ev }.

(** mio_client.rs 273-319 [flush_blocking] *)
Definition flush_blocking (v : send_ev) (e : enc) : enc * bytes * option (res bio_err unit) :=
  match bflush (sv_first v) e with
  | (e, out, Ok _) =>
      match exhausted e with
      | Ok true => (e, out, Some (Ok tt))
      | Ok false =>
          if sv_flags v
          then let '(e, o, r) := bflush_loop (sv_block v) e in (e, out ++ o, r)
          else (e, out, Some (Err BFlags))
      | _ => (e, out, Some Panic)
      end
  | (e, out, r) => (e, out, Some r)
  end.

(** mio_client.rs 233-250 [send_msg]; also tells whether the message has been put into the write buffer. *)
Definition send_msg (v : send_ev) (buf : bytes) (b : bclient) : bclient * bytes * bool * option (res bio_err unit) :=
  let put e := {| b_dec := b_dec b; b_enc := e |} in
  match flush_blocking v (b_enc b) with
  | (e, out, Some (Ok _)) =>
      match exhausted e with
      | Ok true =>
          let e := {| e_buf := splice 0 buf (e_buf e); e_header := e_header e; e_pos := e_pos e |} in
          match restart_with (N.of_nat (length buf)) e with
          | (e, Ok _) => let '(e, o, r) := bflush (sv_last v) e in (put e, out ++ o, true, Some r)
          | (e, _) => (put e, out, false, Some (Err BTooLarge))
          end
      | _ => (put e, out, false, Some Panic)
      end
  | (e, out, r) => (put e, out, false, r)
  end.

(** 183-193 with api/client.rs:192-227 [set_psk] *)
Definition mio_set_psk (v : send_ev) (c : bconfig) (b : bclient)
  : bclient * bytes * option bytes * option (res (set_err bio_err) unit) :=
  match set_psk_request c with
  | Ok req =>
      let '(b, out, put, r) := send_msg v req b in
      (b, out, if put then Some req else None,
       option_map (fun r => match r with Ok u => Ok u | Err x => Err (SIo x) | Panic => Panic end) r)
  | Err x => (b, [], None, Some (Err x))
  | Panic => (b, [], None, Some Panic)
  end.

(** mio_client.rs 252-269 [recv_msg], driven by what the reads do; after these events the socket would block. *)
Fixpoint recv_msg (vs : list rd_ev) (d : dec) (src : bytes) : dec * bytes * res bio_err (option bytes) :=
  match read_from_stdio d (match vs with v :: _ => v | [] => RFail KWouldBlock end) src with
  | (d, src, Ok _) =>
      match dec_message d with
      | Ok m => (d, src, Ok m)
      | Err _ => (d, src, Err BTooLarge)
      | Panic => (d, src, Panic)
      end
  | (d, src, Err (RIo KWouldBlock)) => (d, src, Ok None)
  | (d, src, Err (RIo KInterrupted)) => match vs with [] => (d, src, Ok None) | _ :: vs => recv_msg vs d src end
  | (d, src, Err (RIo k)) => (d, src, Err (BRead k))
  | (d, src, Err TooLarge) => (d, src, Err BTooLarge)
  | (d, src, Panic) => (d, src, Panic)
  end.

(** What a poll of the client reports: nothing, the result of a request, or an invalid message.  mio_client.rs 162-177 *)
Inductive report := RNothing | RResult (r : psk_result) | RInvalid.

(** 162-177 [poll] with api/client.rs:161-183 [poll_response]; an invalid message is an error there. *)
Definition bpoll (ws : list wr_ev) (rs : list rd_ev) (b : bclient) (src : bytes)
  : bclient * bytes * bytes * res bio_err report :=
  match bflush ws (b_enc b) with
  | (e, out, Ok _) =>
      let '(d, src, r) := recv_msg rs (b_dec b) src in
      ({| b_dec := d; b_enc := e |}, src, out,
       match r with
       | Ok None => Ok RNothing
       | Ok (Some m) => Ok (match read_response m with Some x => RResult x | None => RInvalid end)
       | Err x => Err x
       | Panic => Panic
       end)
  | (e, out, Err x) => ({| b_dec := b_dec b; b_enc := e |}, src, out, Err x)
  | (e, out, Panic) => ({| b_dec := b_dec b; b_enc := e |}, src, out, Panic)
  end.

(** The client and what is around it: the bytes from the broker not yet read, the bytes written,
    the requests put into the write buffer and what was reported.  No code in /repo: mio_client.rs 97-101 with what is around it. *)
Record bstate := { bs_client : bclient; bs_in : bytes; bs_out : bytes; bs_sent : list bytes; bs_reports : list report }.
(** mio_client.rs 143-158 on a new socket *)
Definition bstart (src : bytes) : bstate :=
  {| bs_client := bclient_new; bs_in := src; bs_out := []; bs_sent := []; bs_reports := [] |}.

(** No code in /repo: calls of mio_client.rs 183-197 and 213-216, and bytes that arrive. *)
Inductive bop := BSet (c : bconfig) (v : send_ev) | BPoll (ws : list wr_ev) (rs : list rd_ev) | BArrive (l : bytes).

(** One step of a history of the client; [None]: a call of [set_psk] does not return.  No code in /repo: one of these. *)
Definition bstep (o : bop) (s : bstate) : bstate * option (res (set_err bio_err) unit) :=
  match o with
  | BSet c v =>
      let '(b, out, put, r) := mio_set_psk v c (bs_client s) in
      ({| bs_client := b; bs_in := bs_in s; bs_out := bs_out s ++ out;
          bs_sent := bs_sent s ++ match put with Some m => [m] | None => [] end; bs_reports := bs_reports s |}, r)
  | BPoll ws rs =>
      let '(b, src, out, r) := bpoll ws rs (bs_client s) (bs_in s) in
      ({| bs_client := b; bs_in := src; bs_out := bs_out s ++ out; bs_sent := bs_sent s;
          bs_reports := bs_reports s ++ match r with Ok RNothing => [] | Ok x => [x] | _ => [] end |},
       Some match r with Ok RInvalid => Err SBroker | Ok _ => Ok tt | Err x => Err (SIo x) | Panic => Panic end)
  | BArrive l =>
      ({| bs_client := bs_client s; bs_in := bs_in s ++ l; bs_out := bs_out s; bs_sent := bs_sent s;
          bs_reports := bs_reports s |}, Some (Ok tt))
  end.
(** A history; it ends with a call that does not return.  No code in /repo: histories. *)
Fixpoint bsteps (l : list bop) (s : bstate) : bstate * list (option (res (set_err bio_err) unit)) :=
  match l with
  | [] => (s, [])
  | o :: l =>
      match bstep o s with
      | (s, None) => (s, [None])
      | (s, r) => let (s, rs) := bsteps l s in (s, r :: rs)
      end
  end.

End Utf8.
Arguments SBroker {E}. Arguments SIface {E}. Arguments SIo {E} e.
