(** What a file descriptor is asked before it is taken for a socket of a certain kind: util/src/fd.rs, to which the line
    numbers refer, and its uses in the API (rosenpass/src/api/api_handler.rs and util/src/mio/mio.rs). *)
From Verif Require Import Base.

(** Error numbers  No code in /repo: rustix [Errno]. *)
Definition errno := N.

(** What the system answers about one open descriptor: [fstat] gives [st_mode]; the other three are [getsockopt] for
    [SO_DOMAIN], [SO_TYPE] and [SO_PROTOCOL].  No code in /repo: the system, called at fd.rs 272, 309, 338, 514. *)
Record answers := {
  an_mode : res errno N;
  an_domain : res errno N;
  an_type : res errno N;
  an_protocol : res errno N
}.

(** No code in /repo: the constants of Linux that rustix names [AddressFamily::UNIX], [SocketType::STREAM], [SocketType::DGRAM],
    [ipproto::UDP], [FileType::Socket] *)
Definition AF_UNIX : N := 1.
Definition SOCK_STREAM : N := 1.
Definition SOCK_DGRAM : N := 2.
Definition IPPROTO_UDP : N := 17.
Definition S_IFMT : N := 61440.    (* 0o170000 *)
Definition S_IFSOCK : N := 49152.  (* 0o140000 *)

(** [?] on a [Result]  No code in /repo: Rust. *)
Definition rbind {E A B} (x : res E A) (f : A -> res E B) : res E B :=
  match x with Ok a => f a | Err e => Err e | Panic => Panic end.

(** fd.rs 249-253 [StatExt::is_socket] *)
Definition mode_is_socket (mode : N) : bool := N.eqb (N.land mode S_IFMT) S_IFSOCK.
(** fd.rs 280-282 [TryStatExt::is_socket] *)
Definition is_socket (a : answers) : res errno bool := rbind (an_mode a) (fun m => Ok (mode_is_socket m)).
(** fd.rs 308-310 [socket_type] *)
Definition socket_type (a : answers) : res errno N := an_type a.
(** fd.rs 292-295 [is_datagram_socket] *)
Definition is_datagram_socket (a : answers) : res errno bool := rbind (socket_type a) (fun t => Ok (N.eqb t SOCK_DGRAM)).
(** fd.rs 297-299 [is_stream_socket] *)
Definition is_stream_socket (a : answers) : res errno bool := rbind (socket_type a) (fun t => Ok (N.eqb t SOCK_STREAM)).
(** fd.rs 337-339 [socket_domain], 321-323 [socket_address_family] *)
Definition socket_domain (a : answers) : res errno N := an_domain a.
(** fd.rs 325-327 [is_unix_socket] *)
Definition is_unix_socket (a : answers) : res errno bool := rbind (socket_domain a) (fun d => Ok (N.eqb d AF_UNIX)).
(** fd.rs 419-421 [is_unix_stream_socket]: [&&] does not ask for the type unless the domain is right. *)
Definition is_unix_stream_socket (a : answers) : res errno bool :=
  rbind (is_unix_socket a) (fun b => if b then is_stream_socket a else Ok false).
(** The errors of the two [demand] functions  fd.rs 428-429, 499-503 *)
Inductive refusal := NotStream (mode : N) | NotUnix (domain : N) | NotUdp (protocol : N) | NoProtocol | System (e : errno).
(** No code in /repo: conversion of an [Errno] to the error of anyhow, at fd.rs 426 and 503 *)
Definition from_errno {A} (x : res errno A) : res refusal A :=
  match x with Ok a => Ok a | Err e => Err (System e) | Panic => Panic end.
(** fd.rs 423-431 [demand_unix_stream_socket] *)
Definition demand_unix_stream_socket (a : answers) : res refusal unit :=
  rbind (from_errno (socket_domain a)) (fun d => rbind (from_errno (socket_type a)) (fun t =>
    if N.eqb d AF_UNIX then if N.eqb t SOCK_STREAM then Ok tt else Err (NotStream t) else Err (NotUnix d))).
(** fd.rs 513-515 [socket_protocol]: rustix gives [None] for the number 0. *)
Definition socket_protocol (a : answers) : res errno (option N) :=
  rbind (an_protocol a) (fun p => Ok (if N.eqb p 0 then None else Some p)).
(** fd.rs 469-474 [is_udp_socket] *)
Definition is_udp_socket (a : answers) : res errno bool :=
  rbind (socket_protocol a) (fun p => Ok match p with Some p => N.eqb p IPPROTO_UDP | None => false end).
(** fd.rs 496-505 [demand_udp_socket] *)
Definition demand_udp_socket (a : answers) : res refusal unit :=
  match socket_protocol a with
  | Ok (Some p) => if N.eqb p IPPROTO_UDP then Ok tt else Err (NotUdp p)
  | Ok None => Err NoProtocol
  | Err e => Err (System e)
  | Panic => Panic
  end.

(** api_handler.rs 240-251: whether the descriptor of a request to listen is taken; [nb]: [set_nonblocking] succeeds. *)
Definition listenable (a : answers) (nb : bool) : bool :=
  match demand_udp_socket a with Ok _ => nb | _ => false end.
(** api_handler.rs 281-286 with mio.rs 93-100 [from_fd]: whether the descriptor of a request to add a broker is taken *)
Definition connectable (a : answers) (nb : bool) : bool :=
  match demand_unix_stream_socket a with Ok _ => nb | _ => false end.
