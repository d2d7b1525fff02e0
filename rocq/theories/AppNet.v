(** Endpoints of the application server.  Line numbers refer to
    rosenpass/src/app_server.rs. *)
From Verif Require Import Base.

(** [std::net::SocketAddr]: octets of the address, port; for IPv6 also flow information and
    scope id.  Equality (derived, used by the [HashSet] of 642) compares all fields. *)
Inductive sockaddr :=
| V4 (ip : bytes) (port : N)
| V6 (ip : bytes) (port flow scope : N).

(** No code in /repo: the [Eq] that app_server.rs 642 uses. *)
Definition sockaddr_eqb (a b : sockaddr) : bool :=
  match a, b with
  | V4 i p, V4 j q => bytes_eqb i j && (p =? q)%N
  | V6 i p f s, V6 j q g t => bytes_eqb i j && (p =? q)%N && (f =? g)%N && (s =? t)%N
  | _, _ => false
  end.

(** [Ipv4Addr::to_ipv6_mapped] of the standard library. *)
Definition to_ipv6_mapped (ip : bytes) : bytes := zeros 10 ++ [xff; xff] ++ ip.

(** app_server.rs 576-600 [SocketBoundEndpoint::to_bytes], on a 64 bit platform, and 603-607 [encode]. *)
Definition endpoint_bytes (socket : N) (a : sockaddr) : bytes :=
  let '(ip, port, scope) :=
    match a with
    | V4 ip port => (to_ipv6_mapped ip, port, 0%N)
    | V6 ip port _ scope => (ip, port, scope)
    end in
  be_enc 8 socket ++ ip ++ be_enc 2 port ++ be_enc 4 scope.

(** app_server.rs 701-711 [HostPathDiscoveryEndpoint]: scouting state (address number, socket number) and
    addresses; 496-514 [Endpoint], 530-541 [SocketBoundEndpoint]. *)
Inductive endpoint :=
| Bound (socket : nat) (a : sockaddr)
| Discovery (state : nat * nat) (addrs : list sockaddr).

(** app_server.rs 665-671 [addresses] *)
Definition addresses (e : endpoint) : list sockaddr :=
  match e with Bound _ a => [a] | Discovery _ l => l end.

(** app_server.rs 721-727 [from_addresses], 614-616 [discovery_from_addresses]; 730-735 [lookup], whose
    addresses come from the resolver, makes the same value. *)
Definition discovery_from_addresses (l : list sockaddr) : endpoint := Discovery (0, 0) l.

(** app_server.rs 642-648: [seen] is the hash set, [addrs] the vector so far. *)
Fixpoint dedup (sources seen addrs : list sockaddr) : list sockaddr :=
  match sources with
  | [] => addrs
  | a :: l => if existsb (sockaddr_eqb a) seen then dedup l seen addrs
              else dedup l (a :: seen) (addrs ++ [a])
  end.

(** app_server.rs 632-650 [discovery_from_multiple_sources] *)
Definition discovery_from_multiple_sources (a b : option endpoint) : option endpoint :=
  match a, b with
  | Some e, None | None, Some e => Some (discovery_from_addresses (dedup (addresses e) [] []))
  | Some e1, Some e2 => Some (discovery_from_addresses (dedup (addresses e1 ++ addresses e2) [] []))
  | None, None => None
  end.

(** * Sending *)

(** [iter().enumerate().cycle().skip(off).take(n)] over a slice of length [n]: the numbers of
    the elements.  app_server.rs 755-770 *)
Definition cycle_from (off n : nat) : list nat :=
  map (fun i => (off + i) mod n) (seq 0 n).

(** app_server.rs 772-791: the inner loop for address [a].  [ok a s] tells whether the system accepts a
    packet to address number [a] on socket number [s].  Returns the attempts, the socket that
    accepted, and what is left of the iterator [sockets], which is taken [by_ref]. *)
Fixpoint try_sockets (ok : nat -> nat -> bool) (a : nat) (socks : list nat)
  : list (nat * nat) * option nat * list nat :=
  match socks with
  | [] => ([], None, [])
  | s :: l =>
      if ok a s then ([(a, s)], Some s, l)
      else let '(t, r, rest) := try_sockets ok a l in ((a, s) :: t, r, rest)
  end.

(** app_server.rs 771-792: the outer loop. *)
Fixpoint try_addrs (ok : nat -> nat -> bool) (addrs socks : list nat)
  : list (nat * nat) * option (nat * nat) :=
  match addrs with
  | [] => ([], None)
  | a :: l =>
      match try_sockets ok a socks with
      | (t, Some s, _) => (t, Some (a, s))
      | (t, None, rest) => let (t', r) := try_addrs ok l rest in (t ++ t', r)
      end
  end.

(** app_server.rs 745-750 [insert_next_scout_offset]; called only after a successful send, when neither
    list is empty. *)
Definition next_scout_offset (n_addrs n_socks a s : nat) : nat * nat :=
  ((a + 1) mod n_addrs, (s + 1) mod n_socks).

(** app_server.rs 755-795 [send_scouting]: the new scouting state, the attempts made, and whether a packet
    was sent. *)
Definition send_scouting (ok : nat -> nat -> bool) (n_addrs n_socks : nat) (st : nat * nat)
  : (nat * nat) * list (nat * nat) * bool :=
  let (t, r) := try_addrs ok (cycle_from (fst st) n_addrs) (cycle_from (snd st) n_socks) in
  match r with
  | Some (a, s) => (next_scout_offset n_addrs n_socks a s, t, true)
  | None => (st, t, false)
  end.

(** Sending several messages to the same discovery endpoint; [oks] tells what the system
    accepts at the time of each.  The attempts made for each message.  No code in /repo: any number of calls of app_server.rs 755-795. *)
Fixpoint send_many (oks : list (nat -> nat -> bool)) (n m : nat) (st : nat * nat)
  : (nat * nat) * list (list (nat * nat) * bool) :=
  match oks with
  | [] => (st, [])
  | ok :: l =>
      let '(st1, t, b) := send_scouting ok n m st in
      let (st2, h) := send_many l n m st1 in (st2, (t, b) :: h)
  end.
