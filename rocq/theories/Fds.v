(** Model of file descriptors: util/src/fd.rs, util/src/mio/mio.rs, util/src/mio/uds_recv_fd.rs, util/src/mio/uds_send_fd.rs,
    rosenpass/src/api/config.rs and rosenpass/src/api/cli.rs. *)
From Coq Require Import ZArith.
From Verif Require Import Base.

(** * The kernel *)

(** What a descriptor refers to: some file, with its kind, or /dev/null.  The kinds: connected and listening Unix sockets in stream mode,
    other files that epoll(7) can wait for (UDP sockets, pipes), and files that it cannot wait for *)
Inductive kind := KUnixStream | KUnixListener | KPollable | KPlain.
Inductive file := Null | Given (id : nat) (k : kind).
Definition kind_of (f : file) : kind := match f with Null => KPlain | Given _ k => k end.
Inductive errno := EBADF | EINVAL | EMFILE | EPERM | ENOTSOCK | EOTHER (n : nat).

(** The table of descriptors of the process, with the close-on-exec flag, its limit, and for every system call to come whether it
    fails for some other reason; no other thread opens or closes descriptors meanwhile (simplification).  No code in /repo: the kernel. *)
Record kern := { tab : nat -> option (file * bool); limit : nat; faults : list (option errno) }.
(** No code in /repo: the kernel. *)
Definition with_tab (k : kern) (t : nat -> option (file * bool)) : kern := {| tab := t; limit := limit k; faults := faults k |}.
(** No code in /repo: the kernel. *)
Definition upd (t : nat -> option (file * bool)) (n : nat) (e : option (file * bool)) : nat -> option (file * bool) :=
  fun m => if Nat.eqb m n then e else t m.
(** A system call fails because of [faults]  No code in /repo: the kernel. *)
Definition fault (k : kern) : kern * option errno :=
  match faults k with [] => (k, None) | o :: l => ({| tab := tab k; limit := limit k; faults := l |}, o) end.
(** The lowest number that is free, from [i] on, among the next [n]  No code in /repo: the kernel. *)
Fixpoint lowest (t : nat -> option (file * bool)) (i n : nat) : option nat :=
  match n with 0 => None | S n => match t i with None => Some i | Some _ => lowest t (S i) n end end.
(** fcntl(2), F_DUPFD_CLOEXEC *)
Definition dupfd (k : kern) (fd : Z) (min : nat) : kern * res errno nat :=
  let (k, e) := fault k in
  match e with Some e => (k, Err e) | None =>
  if Z.ltb fd 0 then (k, Err EBADF) else
  match tab k (Z.to_nat fd) with
  | None => (k, Err EBADF)
  | Some (f, _) =>
      match lowest (tab k) min (limit k - min) with
      | None => (k, Err EMFILE)
      | Some n => (with_tab k (upd (tab k) n (Some (f, true))), Ok n)
      end
  end end.
(** dup3(2) with O_CLOEXEC *)
Definition dup3 (k : kern) (old : nat) (new : Z) : kern * res errno unit :=
  let (k, e) := fault k in
  match e with Some e => (k, Err e) | None =>
  if Z.ltb new 0 || Nat.leb (limit k) (Z.to_nat new) then (k, Err EBADF) else
  match tab k old with
  | None => (k, Err EBADF)
  | Some (f, _) => if Nat.eqb old (Z.to_nat new) then (k, Err EINVAL) else (with_tab k (upd (tab k) (Z.to_nat new) (Some (f, true))), Ok tt)
  end end.
(** close(2): dropping an [OwnedFd] ignores errors *)
Definition close (k : kern) (fd : Z) : kern := if Z.ltb fd 0 then k else with_tab k (upd (tab k) (Z.to_nat fd) None).

(** * util/src/fd.rs *)

(** fd.rs 167-171 [open_nullfd] *)
Definition open_nullfd (k : kern) : kern * res errno nat :=
  let (k, e) := fault k in
  match e with Some e => (k, Err e) | None =>
  match lowest (tab k) 0 (limit k) with
  | None => (k, Err EMFILE)
  | Some n => (with_tab k (upd (tab k) n (Some (Null, true))), Ok n)
  end end.
(** fd.rs 124-128 [clone_fd_cloexec] *)
Definition clone_fd_cloexec (k : kern) (fd : Z) : kern * res errno nat := dupfd k fd 3.
(** fd.rs 135-138 [clone_fd_to_cloexec] (Linux): the descriptor that is cloned is given away and closed at the end *)
Definition clone_fd_to_cloexec (k : kern) (fd : nat) (new : Z) : kern * res errno unit :=
  let (k, r) := dup3 k fd new in (close k (Z.of_nat fd), r).
(** fd.rs 116-121 [mask_fd]: an [OwnedFd] cannot be made of -1, there is an assertion; [Forgetting] leaves the descriptor open in all cases *)
Definition mask_fd (k : kern) (fd : Z) : kern * res errno unit :=
  if Z.eqb fd (-1) then (k, Panic) else
  let (k, r) := open_nullfd k in
  match r with Ok n => clone_fd_to_cloexec k n fd | Err e => (k, Err e) | Panic => (k, Panic) end.
(** fd.rs 42-46 [claim_fd]: [new] is dropped if masking fails; [BorrowedFd::borrow_raw] panics for -1 *)
Definition claim_fd (k : kern) (fd : Z) : kern * res errno nat :=
  if Z.eqb fd (-1) then (k, Panic) else
  let (k, r) := clone_fd_cloexec k fd in
  match r with
  | Ok new =>
      let (k, m) := mask_fd k fd in
      match m with Ok _ => (k, Ok new) | Err e => (close k (Z.of_nat new), Err e) | Panic => (close k (Z.of_nat new), Panic) end
  | Err e => (k, Err e)
  | Panic => (k, Panic)
  end.
(** fd.rs 78-83 [claim_fd_inplace]: [new], which is the descriptor itself, is dropped if something fails *)
Definition claim_fd_inplace (k : kern) (fd : Z) : kern * res errno nat :=
  if Z.eqb fd (-1) then (k, Panic) else
  let (k, r) := clone_fd_cloexec k fd in
  match r with
  | Ok tmp =>
      let (k, r) := clone_fd_to_cloexec k tmp fd in
      match r with Ok _ => (k, Ok (Z.to_nat fd)) | Err e => (close k fd, Err e) | Panic => (close k fd, Panic) end
  | Err e => (close k fd, Err e)
  | Panic => (close k fd, Panic)
  end.

(** * util/src/mio/mio.rs *)

(** [set_nonblocking] may fail like any system call  Used at mio.rs 73 and 98. *)
Definition set_nonblocking (k : kern) : kern * option errno := fault k.
(** mio.rs 69-75 [UnixListenerExt::claim_fd] *)
Definition listener_claim (k : kern) (fd : Z) : kern * res errno nat :=
  let (k, r) := claim_fd k fd in
  match r with
  | Ok n => let (k, e) := set_nonblocking k in match e with None => (k, Ok n) | Some e => (close k (Z.of_nat n), Err e) end
  | _ => (k, r)
  end.
(** fd.rs 423-431 [demand_unix_stream_socket], on the kind of the file: [ENOTSOCK] stands for all refusals; a listening socket is one
    in stream mode, too *)
Definition demand_unix_stream_socket (k : kern) (n : nat) : bool :=
  match tab k n with
  | Some (f, _) => match kind_of f with KUnixStream | KUnixListener => true | _ => false end
  | None => false
  end.
(** mio.rs 93-100 [UnixStreamExt::from_fd], 102-104 [claim_fd] *)
Definition stream_from (k : kern) (n : nat) : kern * res errno nat :=
  if demand_unix_stream_socket k n then
    let (k, e) := set_nonblocking k in match e with None => (k, Ok n) | Some e => (close k (Z.of_nat n), Err e) end
  else (close k (Z.of_nat n), Err ENOTSOCK).
Definition stream_claim (k : kern) (fd : Z) : kern * res errno nat :=
  let (k, r) := claim_fd k fd in match r with Ok n => stream_from k n | _ => (k, r) end.

(** * rosenpass/src/api *)

(** api/config.rs 12-25 [ApiConfig], api/cli.rs 12-28 [ApiCli], which has the same lists *)
Record api_config := { listen_path : list bytes; listen_fd : list Z; stream_fd : list Z }.
(** cli.rs 33-44 [apply_to_config], [apply_to_api_config] *)
Definition apply_to_api_config (cli cfg : api_config) : api_config :=
  {| listen_path := listen_path cfg ++ listen_path cli; listen_fd := listen_fd cfg ++ listen_fd cli; stream_fd := stream_fd cfg ++ stream_fd cli |}.
(** config.rs 49-56 *)
Definition count_api_sources (c : api_config) : nat := length (listen_path c) + length (listen_fd c) + length (stream_fd c).
Definition has_api_sources (c : api_config) : bool := Nat.ltb 0 (count_api_sources c).

(** What the server listens to: descriptors of listeners in order, descriptors of connections (their order in the manager is that of
    AppIo.v)  manager.rs 17-20 *)
Record api_srv := { a_listeners : list nat; a_connections : list nat }.
(** [UnixListener::bind]: a new descriptor for a new socket bound to the path, or an error; [ids]: sockets of paths  Used at rosenpass/src/api/config.rs 34. *)
Definition bind (sock : bytes -> file) (k : kern) (path : bytes) : kern * res errno nat :=
  let (k, e) := fault k in
  match e with Some e => (k, Err e) | None =>
  match lowest (tab k) 0 (limit k) with
  | None => (k, Err EMFILE)
  | Some n => (with_tab k (upd (tab k) n (Some (sock path, true))), Ok n)
  end end.
(** app_server.rs 1643, api/mio/manager.rs 66-83 [add_listener] and 86-104 [add_connection] as far as they can fail: epoll(7) refuses
    files it cannot wait for *)
Definition register (k : kern) (n : nat) : kern * option errno :=
  let (k, e) := fault k in
  match e with
  | Some e => (k, Some e)
  | None => match tab k n with Some (f, _) => match kind_of f with KPlain => (k, Some EPERM) | _ => (k, None) end | None => (k, Some EBADF) end
  end.
(** One source of API connections  rosenpass/src/api/config.rs 12-25 *)
Inductive source := SPath (p : bytes) | SListen (fd : Z) | SStream (fd : Z).
(** rosenpass/src/api/config.rs 24: connections, not listeners *)
Definition is_conn (x : source) : bool := match x with SStream _ => true | _ => false end.
(** rosenpass/src/api/config.rs 33-43: one element of a list *)
Definition get_source (sock : bytes -> file) (x : source) (k : kern) : kern * res errno nat :=
  match x with SPath p => bind sock k p | SListen fd => listener_claim k fd | SStream fd => stream_claim k fd end.
(** A source is opened and registered; it is closed if this fails  rosenpass/src/api/config.rs 33-43 with manager.rs 66-104 *)
Definition add_source (sock : bytes -> file) (x : source) (k : kern) : kern * res errno nat :=
  let (k, r) := get_source sock x k in
  match r with
  | Ok n => let (k, e) := register k n in match e with None => (k, Ok n) | Some e => (close k (Z.of_nat n), Err e) end
  | _ => (k, r)
  end.
(** manager.rs 66-104 *)
Definition push (s : api_srv) (x : source) (n : nat) : api_srv :=
  if is_conn x then {| a_listeners := a_listeners s; a_connections := a_connections s ++ [n] |}
  else {| a_listeners := a_listeners s ++ [n]; a_connections := a_connections s |}.
(** config.rs 32-46 [apply_to_app_server]: the three loops; what is there already stays in the server in case of an error *)
Fixpoint add_sources (sock : bytes -> file) (l : list source) (s : api_srv) (k : kern) : kern * (api_srv * res errno unit) :=
  match l with
  | [] => (k, (s, Ok tt))
  | x :: l =>
      let (k, r) := add_source sock x k in
      match r with
      | Ok n => add_sources sock l (push s x n) k
      | Err e => (k, (s, Err e))
      | Panic => (k, (s, Panic))
      end
  end.
Definition sources (c : api_config) : list source :=
  map SPath (listen_path c) ++ map SListen (listen_fd c) ++ map SStream (stream_fd c).
Definition apply_to_app_server (sock : bytes -> file) (c : api_config) (k : kern) : kern * (api_srv * res errno unit) :=
  add_sources sock (sources c) {| a_listeners := []; a_connections := [] |} k.

(** * util/src/mio/uds_recv_fd.rs *)

(** uds_recv_fd.rs 158-169: claiming the descriptors that were received, until one cannot be; the claimed ones are appended to the queue *)
Fixpoint claim_all (k : kern) (l : list nat) (q : list nat) : kern * list nat * list nat * option errno :=
  match l with
  | [] => (k, q, [], None)
  | n :: l =>
      let (k, r) := claim_fd_inplace k (Z.of_nat n) in
      match r with
      | Ok m => claim_all k l (q ++ [m])
      | Err e => (k, q, l, Some e)
      | Panic => (k, q, l, Some (EOTHER 0))
      end
  end.
Definition close_all (k : kern) (l : list nat) : kern := fold_left (fun k n => close k (Z.of_nat n)) l k.
(** unix(7): delivered descriptors get the lowest free numbers, those that do not fit are lost *)
Fixpoint deliver (k : kern) (fs : list file) : kern * list nat :=
  match fs with
  | [] => (k, [])
  | f :: fs =>
      match lowest (tab k) 0 (limit k) with
      | Some m => let (k', l) := deliver (with_tab k (upd (tab k) m (Some (f, false)))) fs in (k', m :: l)
      | None => (k, [])
      end
  end.
(** uds_recv_fd.rs 139-185 [Read::read] of [ReadWithFileDescriptors]: [q] is the queue, [max] is [MAX_FDS].  The kernel puts the descriptors it delivers
    into free places of the table: [got], at most as many as there is room for; [recv] may fail, and then nothing is delivered. *)
Definition read_fds (max : nat) (q : list nat) (k : kern) (recv : res errno (nat * list file)) : kern * list nat * res errno nat :=
  let have := length q in
  let room := max - have in
  match recv with
  | Err e => (k, q, Err e)
  | Panic => (k, q, Panic)
  | Ok (n, files) =>
      let (k, got) := deliver k (firstn room files) in
      let '(k, q', rest, e) := claim_all k got q in
      match e with
      | None => (k, q', Ok n)
      | Some e => (close_all (close_all k (skipn have q')) rest, firstn have q', Err e)
      end
  end.

(** * util/src/mio/uds_send_fd.rs *)

(** What goes over the socket in one piece: bytes and the descriptors that come with them  uds_send_fd.rs 135 *)
Definition SCM_MAX_FD : nat := 253.
(** uds_send_fd.rs 126-160 [Write::write] of [WriteWithFileDescriptors]: [q] is the queue; [send n] tells how many of [n] bytes the socket takes *)
Definition write_fds {F} (q : list F) (buf : bytes) (send : nat -> res errno nat) : list F * list (bytes * list F) * res errno nat :=
  match buf with
  | [] => (q, [], Ok 0)
  | _ :: _ =>
      let buf := if Nat.leb (length q) SCM_MAX_FD then buf else firstn 1 buf in
      let no := Nat.min SCM_MAX_FD (length q) in
      match send (length buf) with
      | Ok n => (skipn no q, [(firstn n buf, firstn no q)], Ok n)
      | Err e => (q, [], Err e)
      | Panic => (q, [], Panic)
      end
  end.
