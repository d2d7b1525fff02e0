(** Model of how rosenpass reaches the broker that gets its keys, and of the processes there are then: rosenpass/src/cli.rs,
    rosenpass/src/main.rs and wireguard-broker/src/bin/socket_handler.rs. *)
From Coq Require Import ZArith.
From Verif Require Import Base Fds.

(** * Choice: rosenpass/src/cli.rs *)

(** cli.rs 39-54 [BrokerInterface] *)
Inductive iface := ISocket (path : bytes) | IFd (fd : Z) | IPair.
(** cli.rs 78-99: the options, all in one group *)
Record broker_args := { a_path : option bytes; a_fd : option Z; a_spawn : bool }.
(** cli.rs 150-160 [get_broker_interface] *)
Definition get_broker_interface (a : broker_args) : option iface :=
  match a_path a with
  | Some p => Some (ISocket p)
  | None => match a_fd a with Some z => Some (IFd z) | None => if a_spawn a then Some IPair else None end
  end.
(** cli.rs 80, 91, 96 and main.rs 23, 80: arguments of one group exclude each other, the library clap then ends the program *)
Definition chosen (a : broker_args) : res unit (option iface) :=
  if Nat.leb 2 ((if a_path a then 1 else 0) + (if a_fd a then 1 else 0) + (if a_spawn a then 1 else 0)) then Err tt
  else Ok (get_broker_interface a).

(** * The connection: rosenpass/src/cli.rs *)

(** No code in /repo: a table of descriptors as in Fds.v. *)
Definition fdtab : Type := nat -> option (file * bool).
(** No code in /repo: a system call that makes one descriptor.  mio and std ask for close-on-exec. *)
Definition open_fd (k : kern) (f : file) (cloexec : bool) : kern * res errno nat :=
  let (k, e) := fault k in
  match e with Some e => (k, Err e) | None =>
  match lowest (tab k) 0 (limit k) with
  | None => (k, Err EMFILE)
  | Some n => (with_tab k (upd (tab k) n (Some (f, cloexec))), Ok n)
  end end.
(** No code in /repo: the two ends of the pair or pipe number [i], and the other end of an end. *)
Definition end_a (i : nat) (k : kind) : file := Given (2 * i) k.
Definition end_b (i : nat) (k : kind) : file := Given (2 * i + 1) k.
Definition other (f : file) : file :=
  match f with Null => Null | Given id k => Given (if Nat.even id then id + 1 else id - 1) k end.
(** No code in /repo: socketpair(2).  It fails as a whole.  [cloexec]: [SocketFlags] as given in cli.rs 573 *)
Definition socketpair (i : nat) (cloexec : bool) (k : kern) : kern * res errno (nat * nat) :=
  let (k1, e) := fault k in
  match e with Some e => (k1, Err e) | None =>
  match lowest (tab k1) 0 (limit k1) with
  | None => (k1, Err EMFILE)
  | Some a =>
      let t := upd (tab k1) a (Some (end_a i KUnixStream, cloexec)) in
      match lowest t 0 (limit k1) with
      | None => (k1, Err EMFILE)
      | Some b => (with_tab k1 (upd t b (Some (end_b i KUnixStream, cloexec))), Ok (a, b))
      end
  end end.
(** No code in /repo: exec(2) closes the descriptors that are marked. *)
Definition exec (t : fdtab) : fdtab := fun n => match t n with Some (f, false) => Some (f, false) | _ => None end.
(** cli.rs 586: the number of the connection in the broker *)
Definition CHILD_FD : nat := 3.
(** cli.rs 584-587 [fd_mappings] of the library command-fds with one mapping, as it runs in the child between fork and exec: if the
    number is that of the broker already, the descriptor is moved away first; dup2(2) clears the mark *)
Definition map_fds (t : fdtab) (limit : nat) (parent : nat) : res errno fdtab :=
  match t parent with
  | None => Err EBADF
  | Some (f, _) =>
      if Nat.leb limit CHILD_FD then Err EBADF else
      if Nat.eqb parent CHILD_FD then
        match lowest t (S CHILD_FD) (limit - S CHILD_FD) with
        | None => Err EMFILE
        | Some tmp => Ok (upd (upd (upd t tmp (Some (f, true))) parent None) CHILD_FD (Some (f, false)))
        end
      else Ok (upd t CHILD_FD (Some (f, false)))
  end.
(** cli.rs 582-588 [spawn]: the table of the new process.  An error in the child before exec is reported to the parent. *)
Definition spawn (k : kern) (theirs : nat) : kern * res errno fdtab :=
  let (k, e) := fault k in
  match e with Some e => (k, Err e) | None =>
  match map_fds (tab k) (limit k) theirs with Ok t => (k, Ok (exec t)) | Err e => (k, Err e) | Panic => (k, Panic) end end.
(** cli.rs 557-609 [get_broker_socket]: the connection, and the process that was started.  [conn]: what a path leads to; [i]: the number
    of the new pair.  The thread that waits for the process only writes to the log and is left out. *)
Definition get_broker_socket (conn : bytes -> file) (i : nat) (k : kern) (x : iface) : kern * option fdtab * res errno nat :=
  match x with
  | ISocket p => let (k, r) := open_fd k (conn p) true in (k, None, r)
  | IFd z =>
      let (k, r) := claim_fd k z in
      match r with
      | Ok n => let (k, e) := set_nonblocking k in match e with None => (k, None, Ok n) | Some e => (close k (Z.of_nat n), None, Err e) end
      | _ => (k, None, r)
      end
  | IPair =>
      let (k, r) := socketpair i false k in
      match r with
      | Err e => (k, None, Err e)
      | Panic => (k, None, Panic)
      | Ok (ours, theirs) =>
          let (k, e) := set_nonblocking k in
          match e with
          | Some e => (close (close k (Z.of_nat ours)) (Z.of_nat theirs), None, Err e)
          | None =>
              let (k, c) := spawn k theirs in
              let k := close k (Z.of_nat theirs) in
              match c with
              | Ok t => (k, Some t, Ok ours)
              | Err e => (close k (Z.of_nat ours), None, Err e)
              | Panic => (close k (Z.of_nat ours), None, Panic)
              end
          end
      end
  end.

(** * The processes: rosenpass, the socket handler and the privileged broker *)

(** The socket handler: its descriptors, the one of its connection once it has claimed it, and whether the privileged process was
    started; socket_handler.rs 63-108 *)
Record handler := { h_kern : kern; h_stream : option nat; h_started : bool }.
(** No code in /repo: the processes that there are, by their descriptors *)
Record world := { w_rosenpass : option kern; w_handler : option handler; w_priv : option kern }.
(** No code in /repo: somebody has a descriptor of the file. *)
Definition has (k : kern) (f : file) : Prop := exists n c, tab k n = Some (f, c).
Definition held (w : world) (f : file) : Prop :=
  (exists k, w_rosenpass w = Some k /\ has k f) \/ (exists h, w_handler w = Some h /\ has (h_kern h) f) \/ (exists k, w_priv w = Some k /\ has k f).

(** socket_handler.rs 101-108: the handler starts the privileged process with two pipes, [i] and [i + 1], for standard input and output; the
    ends that the handler keeps are marked close-on-exec.  If something fails there is no privileged process. *)
Definition start_priv (i : nat) (k : kern) : kern * option fdtab :=
  let (k0, e) := fault k in
  match e with Some _ => (k0, None) | None =>
  match lowest (tab k0) 0 (limit k0) with
  | None => (k0, None)
  | Some a =>
      let t := upd (tab k0) a (Some (end_b i KPollable, true)) in
      match lowest t 0 (limit k0) with
      | None => (k0, None)
      | Some b =>
          let t := upd t b (Some (end_a (S i) KPollable, true)) in
          (with_tab k0 t, Some (upd (upd (exec t) 0 (Some (end_a i KPollable, false))) 1 (Some (end_b (S i) KPollable, false))))
      end
  end end.

(** What happens: rosenpass opens, closes and copies descriptors, or ends; the handler claims its connection (socket_handler.rs 87-90)
    or starts the privileged process (72-77); a request is served (168-207); the handler reads the end of its connection, and ends with
    an error (173, 90); the privileged process reads the end of its standard input and ends (priviledged.rs 51-94); a process ends for
    another reason *)
Inductive wop := ORosenpass (k : kern) | ORosenpassEnds | OClaim | OStart (i : nat) | OServe | OEof | OPrivEof | OHandlerDies | OPrivDies.
(** When it can happen.  A read meets the end of a stream when nobody has a descriptor of its other end. *)
Definition can (w : world) (o : wop) : Prop :=
  match o with
  | ORosenpass _ => w_rosenpass w <> None
  | ORosenpassEnds => w_rosenpass w <> None
  | OClaim => exists h, w_handler w = Some h /\ h_stream h = None
  | OStart i => (exists h, w_handler w = Some h /\ h_started h = false) /\
      forall f, In f [end_a i KPollable; end_b i KPollable; end_a (S i) KPollable; end_b (S i) KPollable] -> ~ held w f
  | OServe => exists h n, w_handler w = Some h /\ h_stream h = Some n
  | OEof => exists h n f c, w_handler w = Some h /\ h_stream h = Some n /\ tab (h_kern h) n = Some (f, c) /\ ~ held w (other f)
  | OPrivEof => exists k f c, w_priv w = Some k /\ tab k 0 = Some (f, c) /\ ~ held w (other f)
  | OHandlerDies => w_handler w <> None
  | OPrivDies => w_priv w <> None
  end.
(** socket_handler.rs 87-90: a handler that cannot claim its connection ends with an error *)
Definition claim_stream (h : handler) : option handler :=
  match claim_fd (h_kern h) (Z.of_nat CHILD_FD) with
  | (k, Ok n) => match set_nonblocking k with (k, None) => Some {| h_kern := k; h_stream := Some n; h_started := h_started h |} | (_, Some _) => None end
  | _ => None
  end.
(** No code in /repo: one step *)
Definition wstep (w : world) (o : wop) : world :=
  match o with
  | ORosenpass k => {| w_rosenpass := Some k; w_handler := w_handler w; w_priv := w_priv w |}
  | ORosenpassEnds => {| w_rosenpass := None; w_handler := w_handler w; w_priv := w_priv w |}
  | OClaim => {| w_rosenpass := w_rosenpass w; w_handler := match w_handler w with Some h => claim_stream h | None => None end; w_priv := w_priv w |}
  | OStart i =>
      match w_handler w with
      | Some h =>
          let (k, p) := start_priv i (h_kern h) in
          {| w_rosenpass := w_rosenpass w; w_handler := Some {| h_kern := k; h_stream := h_stream h; h_started := true |};
             w_priv := match p with Some t => Some {| tab := t; limit := limit k; faults := [] |} | None => None end |}
      | None => w
      end
  | OServe => w
  | OEof | OHandlerDies => {| w_rosenpass := w_rosenpass w; w_handler := None; w_priv := w_priv w |}
  | OPrivEof | OPrivDies => {| w_rosenpass := w_rosenpass w; w_handler := w_handler w; w_priv := None |}
  end.
(** No code in /repo: histories *)
Inductive whist : world -> list wop -> world -> Prop :=
| whist_nil w : whist w [] w
| whist_cons w o l w' : can w o -> whist (wstep w o) l w' -> whist w (o :: l) w'.
(** No code in /repo: the processes just after cli.rs 588; the system calls of the handler can fail in any way [fl] *)
Definition after_spawn (k : kern) (t : fdtab) (fl : list (option errno)) : world :=
  {| w_rosenpass := Some k; w_handler := Some {| h_kern := {| tab := t; limit := limit k; faults := fl |}; h_stream := None; h_started := false |}; w_priv := None |}.
