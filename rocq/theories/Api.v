(** The API of the server: messages, parsing, and handling of requests.  Line numbers without a
    file name refer to rosenpass/src/api/boilerplate/.

    Numbers are read and written in the byte order of the machine; the model is of a
    little-endian one.  Buffers are aligned as [zerocopy] demands (mio/connection.rs:43). *)
From Verif Require Import Base ConstTime Prims HashDomains Wire Server Protocol Wp Inv Rules Calls PollRules System
  Builder AppIo Lpe.

(** * Messages *)

(** message_type.rs:48-62; requests and responses have the same four kinds. *)
Inductive side := Req | Resp.
Inductive kind := Ping | SupplyKeypair | AddListenSocket | AddPskBroker.

(** message_type.rs:11-36, [RawMsgType::from_le_bytes] *)
Definition PING_REQUEST : N := le_dec [x23;x97;x3e;xcc;xc4;x41;x70;x4d;x0b;x02;xea;x31;x45;xd3;x49;x99].
Definition PING_RESPONSE : N := le_dec [x4e;xc7;xf6;xf0;x2b;xbc;xba;x64;x48;xf1;xda;x14;xc7;xcf;x02;x60].
Definition SUPPLY_KEYPAIR_REQUEST : N := le_dec [xac;x91;xa5;xa6;x4f;x4b;x21;xd0;xac;x7f;x9b;x55;x74;xf7;x35;x29].
Definition SUPPLY_KEYPAIR_RESPONSE : N := le_dec [xf2;xdc;x49;xbd;xe2;x61;x5f;x10;x40;xb7;x3c;x16;xec;x61;xed;xb9].
Definition ADD_LISTEN_SOCKET_REQUEST : N := le_dec [x3f;x21;x43;x4f;x87;xcc;xa0;x8c;x02;xc4;x61;xe4;x08;x16;xc7;xda].
Definition ADD_LISTEN_SOCKET_RESPONSE : N := le_dec [x45;xd5;x0f;x0d;x93;xf0;x61;x05;x98;xf2;x94;x69;x5d;xfd;x5f;x36].
Definition ADD_PSK_BROKER_REQUEST : N := le_dec [xd7;x98;xb8;xdc;xbd;x61;x5c;xab;x8d;xf1;xc6;x3d;xe4;xeb;xa2;xd1].
Definition ADD_PSK_BROKER_RESPONSE : N := le_dec [xbd;x25;xe4;x18;xff;xb0;x69;x30;x24;x8b;x21;x7e;x2f;xae;xe3;x53].

(** message_type.rs:101-111, 128-138 *)
Definition raw_of (s : side) (k : kind) : N :=
  match s, k with
  | Req, Ping => PING_REQUEST | Resp, Ping => PING_RESPONSE
  | Req, SupplyKeypair => SUPPLY_KEYPAIR_REQUEST | Resp, SupplyKeypair => SUPPLY_KEYPAIR_RESPONSE
  | Req, AddListenSocket => ADD_LISTEN_SOCKET_REQUEST | Resp, AddListenSocket => ADD_LISTEN_SOCKET_RESPONSE
  | Req, AddPskBroker => ADD_PSK_BROKER_REQUEST | Resp, AddPskBroker => ADD_PSK_BROKER_RESPONSE
  end.

(** message_type.rs:86-99, 113-126 [try_from]: the arms are tried in order.  message_type.rs 145-162 *)
Definition kind_of (s : side) (v : N) : option kind :=
  if (v =? raw_of s Ping)%N then Some Ping
  else if (v =? raw_of s SupplyKeypair)%N then Some SupplyKeypair
  else if (v =? raw_of s AddListenSocket)%N then Some AddListenSocket
  else if (v =? raw_of s AddPskBroker)%N then Some AddPskBroker
  else None.

(** message_type.rs:64-84 [message_size]: the sizes of the packed structures of payload.rs:14-368,
    a type of 16 bytes and the payload.  message_type.rs 39-44 *)
Definition message_size (s : side) (k : kind) : nat :=
  match s, k with
  | _, Ping => 16 + 256
  | Req, _ => 16
  | Resp, _ => 16 + 16
  end.

(** * Parsing *)

(** util/src/zerocopy/ref_maker.rs:245-247 [from_prefix], for a type of [n] bytes. *)
Definition zk_prefix (n : nat) (buf : bytes) : option bytes :=
  if n <=? length buf then Some (firstn n buf) else None.
(** ref_maker.rs:120-128 [parse]: [Ref::from_bytes] wants the exact size.  byte_slice_ext.rs 95-258: the functions for the messages are this one with the size of the message. *)
Definition zk_parse (n : nat) (buf : bytes) : option bytes :=
  if n <=? length buf then if length buf =? n then Some buf else None else None.

(** byte_slice_ext.rs:25-29, 49-53 [request_msg_type_from_prefix], [response_msg_type_from_prefix]  byte_slice_ext.rs 12-14, message_type.rs 165-180 *)
Definition msg_type_from_prefix (s : side) (buf : bytes) : option kind :=
  match zk_prefix 16 buf with
  | None => None
  | Some t => match zk_parse 16 t with None => None | Some t => kind_of s (le_dec t) end
  end.

(** request_ref.rs:108-121, response_ref.rs:112-125 [parse] *)
Definition maker_parse (s : side) (x : bytes * kind) : option (kind * bytes) :=
  match zk_parse (message_size s (snd x)) (fst x) with
  | None => None
  | Some b => Some (snd x, b)
  end.

(** request_ref.rs:99-102, response_ref.rs:103-106 [new]  request_ref.rs 11-14, 64-106, response_ref.rs 11-18, 68-110 *)
Definition maker_new (s : side) (buf : bytes) : option (bytes * kind) :=
  match msg_type_from_prefix s buf with
  | None => None
  | Some k => Some (buf, k)
  end.

(** request_ref.rs:124-132, response_ref.rs:128-136 [from_prefix], with [ensure_fit] (145, 149)  request_ref.rs 145-153, response_ref.rs 149-157 *)
Definition maker_from_prefix (s : side) (x : bytes * kind) : option (bytes * kind) :=
  let point := message_size s (snd x) in
  if point <=? length (fst x) then Some (firstn point (fst x), snd x) else None.
(** request_ref.rs:135-143, response_ref.rs:139-147 [from_suffix] *)
Definition maker_from_suffix (s : side) (x : bytes * kind) : option (bytes * kind) :=
  let need := message_size s (snd x) in
  if need <=? length (fst x) then Some (skipn (length (fst x) - need) (fst x), snd x) else None.

(** No code in /repo: `?` on an [Option]. *)
Definition obind {A B} (x : option A) (f : A -> option B) : option B :=
  match x with Some a => f a | None => None end.

(** request_ref.rs:43-57, response_ref.rs:47-61  byte_slice_ext.rs 65-92; request_ref.rs 157-195, response_ref.rs 161-199 give the bytes of the message. *)
Definition parse (s : side) (buf : bytes) : option (kind * bytes) :=
  obind (maker_new s buf) (maker_parse s).
Definition parse_from_prefix (s : side) (buf : bytes) : option (kind * bytes) :=
  obind (obind (maker_new s buf) (maker_from_prefix s)) (maker_parse s).
Definition parse_from_suffix (s : side) (buf : bytes) : option (kind * bytes) :=
  obind (obind (maker_new s buf) (maker_from_suffix s)) (maker_parse s).

(** payload.rs:51-56 and likewise for the others: [from_payload] *)
Definition message (s : side) (k : kind) (payload : bytes) : bytes := le_enc 16 (raw_of s k) ++ payload.

(** * Handling *)

(** A file descriptor that came with a request: what reading it gives, whether it is a UDP socket
    that can be made non-blocking (api_handler.rs:246-249), and the broker a [UnixStream] on it would be
    (api_handler.rs:285), if it can be one. *)
Record fdesc := { fd_file : file; fd_udp : bool; fd_stream : option nat }.

(** The parts of the application a request can change.  api_handler.rs 61-70 *)
Record world := { w_site : site; w_io : io }.

(** What the operating system and the random number generator contribute to one request.  No code in /repo: the environment of api_handler.rs 128-340. *)
Record api_env := { ae_draws : draws; ae_listen : bool; ae_unregister : bool; ae_register : bool }.

(** rosenpass/src/api/boilerplate/server.rs 178-216: what handling a request fails with *)
Inductive api_err := ABadRequest | ANoRoom | AInternal (e : supply_err).

Section WithPrims.
Context (P : prims).

(** ../api_handler.rs:128-340, the four handlers: the new state, the file descriptors left, and the
    payload written to the response.  [add_listen_socket] and [add_psk_broker] take the first file
    descriptor. *)
Definition handle (e : api_env) (k : kind) (payload : bytes) (fds : list fdesc) (w : world)
  : world * list fdesc * res api_err bytes :=
  match k with
  | Ping => (w, fds, Ok payload)
  | SupplyKeypair =>
      let (c, r) := supply_keypair P (ae_draws e) (map fd_file fds) (w_site w) in
      let w := {| w_site := c; w_io := w_io w |} in
      (w, fds, match r with Ok st => Ok (le_enc 16 st) | Err x => Err (AInternal x) | Panic => Panic end)
  | AddListenSocket =>
      let valid := match fds with f :: _ => fd_udp f | [] => false end in
      let (x, r) := add_listen_socket valid (ae_listen e) (w_io w) in
      let w := {| w_site := w_site w; w_io := x |} in
      (w, tl fds, match r with Ok st => Ok (le_enc 16 st) | _ => Panic end)
  | AddPskBroker =>
      let sock := match fds with f :: _ => fd_stream f | [] => None end in
      let (x, r) := add_psk_broker sock (ae_unregister e) (ae_register e) (w_io w) in
      let w := {| w_site := w_site w; w_io := x |} in
      (w, tl fds, match r with Ok st => Ok (le_enc 16 st) | _ => Panic end)
  end.

(** server.rs:178-216 [handle_message] with 149-168 [dispatch]: the response is written into [buf];
    only the type of the response is initialized (payload.rs:105-107).  Also returns the length of
    the response. *)
Definition handle_message (e : api_env) (req : bytes) (fds : list fdesc) (buf : bytes) (w : world)
  : world * list fdesc * bytes * res api_err nat :=
  match parse_from_prefix Req req with
  | None => (w, fds, buf, Err ABadRequest)
  | Some (k, body) =>
      match zk_prefix (message_size Resp k) buf with
      | None => (w, fds, buf, Err ANoRoom)
      | Some _ =>
          let buf := splice 0 (le_enc 16 (raw_of Resp k)) buf in
          match handle e k (skipn 16 body) fds w with
          | (w, fds, Ok p) => (w, fds, splice 16 p buf, Ok (message_size Resp k))
          | (w, fds, Err x) => (w, fds, buf, Err x)
          | (w, fds, Panic) => (w, fds, buf, Panic)
          end
      end
  end.

End WithPrims.
