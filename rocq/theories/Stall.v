(** The mode of the broker client's socket: wireguard-broker/src/brokers/mio_client.rs 273-319. *)
From Verif Require Import Base Wire Lpe Broker.
Local Open Scope N_scope.

(** What the kernel keeps for a socket: the close-on-exec flag of the descriptor and whether the open file is non-blocking.
    No code in /repo: fcntl(2). *)
Record sock := { k_cloexec : bool; k_nonblock : bool }.

(** fcntl(2), Linux: FD_CLOEXEC.  No code in /repo: of rustix, used at mio_client.rs 281. *)
Definition FD_CLOEXEC : N := 1.
(** fcntl(2), Linux x86: O_NONBLOCK.  No code in /repo: of libc, used at mio_client.rs 285. *)
Definition O_NONBLOCK : N := 2048.

(** F_GETFD.  No code in /repo: fcntl(2), used at mio_client.rs 295. *)
Definition getfd (k : sock) : N := if k_cloexec k then FD_CLOEXEC else 0.
(** F_SETFD: of the given flags the kernel takes FD_CLOEXEC.  No code in /repo: fcntl(2), used at 300 and 316. *)
Definition setfd (flags : N) (k : sock) : sock :=
  {| k_cloexec := negb (N.land flags FD_CLOEXEC =? 0); k_nonblock := k_nonblock k |}.

(** mio_client.rs 283-300: the socket while the loop of [flush_blocking] runs.  That the value of O_NONBLOCK is accepted as flags of
    a descriptor (287-292) depends on the version of rustix; if it is not, the call fails, which [sv_flags] covers. *)
Definition during (k : sock) : sock := setfd (N.lor (getfd k) O_NONBLOCK) k.
(** mio_client.rs 295, 316: the socket after it *)
Definition after (k : sock) : sock := setfd (getfd k) (during k).

(** What a write on this socket can do: only on a non-blocking one it fails because it would block.
    No code in /repo: write(2). *)
Definition possible (k : sock) (v : wr_ev) : Prop := v = WFail KWouldBlock -> k_nonblock k = true.
