(** Model of the helpers that deal with the errors of system calls: util/src/io.rs and util/src/file.rs, and of the wait for
    events, rosenpass/src/app_server.rs 1530-1550. *)
From Coq Require Import ZArith.
From Verif Require Import Base Lpe.

(** * Errors *)

(** util/src/io.rs 253-285: an error, and the kind that [try_io_error_kind] reports for it, if it reports one.  Errors of the same
    kind are told apart by a number. *)
Record ioerr := { ie_kind : option io_kind; ie_no : nat }.
(** No code in /repo: [Result] *)
Inductive result (R : Type) := RVal (v : R) | RErr (e : ioerr).
Arguments RVal {R}.
Arguments RErr {R}.

(** util/src/io.rs 287-336 [io_err_kind_hint], [try_io_err_kind_hint]: the error together with its kind *)
Definition hint {R} (x : result R) : R + (ioerr * option io_kind) :=
  match x with RVal v => inl v | RErr e => inr (e, ie_kind e) end.
(** No code in /repo: the derived comparison of [io::ErrorKind] *)
Definition kind_eqb (a b : io_kind) : bool :=
  match a, b with
  | KInterrupted, KInterrupted | KWouldBlock, KWouldBlock | KUnexpectedEof, KUnexpectedEof | KOther, KOther => true
  | _, _ => false
  end.
(** util/src/io.rs 338-428 [substitute_for_ioerr_kind_with] and its special cases *)
Definition substitute_for_ioerr_kind {R} (k : io_kind) (v : R) (x : result R) : result R :=
  match hint x with
  | inl w => RVal w
  | inr (e, Some j) => if kind_eqb j k then RVal v else RErr e
  | inr (e, None) => RErr e
  end.
Definition substitute_for_ioerr_interrupted {R} (v : R) (x : result R) : result R := substitute_for_ioerr_kind KInterrupted v x.
Definition substitute_for_ioerr_wouldblock {R} (v : R) (x : result R) : result R := substitute_for_ioerr_kind KWouldBlock v x.

(** util/src/io.rs 430-452 [handle_interrupted].  The list says what the calls of the function give one after the other; the second
    component is what is left of it.  [None]: the list is used up and the loop goes on. *)
Fixpoint handle_interrupted {R} (calls : list (result R)) : option (result (option R)) * list (result R) :=
  match calls with
  | [] => (None, [])
  | x :: l =>
      match hint x with
      | inl v => (Some (RVal (Some v)), l)
      | inr (_, Some KInterrupted) => handle_interrupted l
      | inr (e, _) => (Some (RErr e), l)
      end
  end.
(** util/src/io.rs 454-479 [nonblocking_handle_io_errors] and 481-503 [read_nonblocking_with_boring_errors_handled] *)
Fixpoint nonblocking_handle_io_errors {R} (calls : list (result R)) : option (result (option R)) * list (result R) :=
  match calls with
  | [] => (None, [])
  | x :: l =>
      match hint x with
      | inl v => (Some (RVal (Some v)), l)
      | inr (_, Some KWouldBlock) => (Some (RVal None), l)
      | inr (_, Some KInterrupted) => nonblocking_handle_io_errors l
      | inr (e, _) => (Some (RErr e), l)
      end
  end.

(** * Reading to the end *)

(** No code in /repo: one call of [Read::read] on a source that still has the bytes [src], with room for [n] bytes.  It gives at least
    one byte if there are any and there is room, or it fails. *)
Inductive rcall := Piece (k : nat) | Fails (e : ioerr).
Definition read1 (c : rcall) (n : nat) (src : bytes) : result bytes :=
  match c with Piece k => RVal (firstn (Nat.min (S k) n) src) | Fails e => RErr e end.
(** util/src/io.rs 526-532 and util/src/file.rs 114-125, 179-184: the errors; [ShortFile] is the error of [read_exact] at the end *)
Inductive rd_out := Done (n : nat) | TooLong | ShortFile | Broken (e : ioerr).
(** No code in /repo: [Read::read_exact] of the standard library for room for [n] bytes: interruptions are ignored.  The bytes read,
    what is left of the source and of the calls, and the outcome *)
Fixpoint read_exact (cs : list rcall) (n : nat) (src : bytes) : bytes * bytes * list rcall * option rd_out :=
  match n with
  | 0 => ([], src, cs, Some (Done 0))
  | S _ =>
      match cs with
      | [] => ([], src, [], None)
      | c :: l =>
          match read1 c n src with
          | RVal [] => ([], src, l, Some ShortFile)
          | RVal d => let '(got, s, l, o) := read_exact l (n - length d) (skipn (length d) src) in (d ++ got, s, l, o)
          | RErr e => match ie_kind e with Some KInterrupted => read_exact l n src | _ => ([], src, l, Some (Broken e)) end
          end
      end
  end.
(** util/src/io.rs 529-531 and util/src/file.rs 124, 182: the read that finds the end *)
Definition at_end (cs : list rcall) (src : bytes) (n : nat) : option rd_out :=
  match cs with
  | [] => None
  | c :: _ => match read1 c 8 src with RVal [] => Some (Done n) | RVal _ => Some TooLong | RErr e => Some (Broken e) end
  end.
(** util/src/io.rs 526-533 [read_exact_til_end] and util/src/file.rs 179-184 [read_exact_to_end], which is the same function: the buffer
    afterwards, and the outcome *)
Definition read_exact_to_end (cs : list rcall) (buf src : bytes) : bytes * option rd_out :=
  let '(got, s, l, o) := read_exact cs (length buf) src in
  (got ++ skipn (length got) buf, match o with Some (Done _) => at_end l s (length buf) | _ => o end).
(** util/src/file.rs 117-123: the loop of [read_slice_to_end] *)
Fixpoint read_slice (cs : list rcall) (n : nat) (src : bytes) : bytes * bytes * list rcall * option rd_out :=
  match n with
  | 0 => ([], src, cs, Some (Done 0))
  | S _ =>
      match cs with
      | [] => ([], src, [], None)
      | c :: l =>
          match read1 c n src with
          | RVal [] => ([], src, l, Some (Done 0))
          | RVal d => let '(got, s, l, o) := read_slice l (n - length d) (skipn (length d) src) in (d ++ got, s, l, o)
          | RErr e => ([], src, l, Some (Broken e))
          end
      end
  end.
(** util/src/file.rs 114-126 [read_slice_to_end] *)
Definition read_slice_to_end (cs : list rcall) (buf src : bytes) : bytes * option rd_out :=
  let '(got, s, l, o) := read_slice cs (length buf) src in
  (got ++ skipn (length got) buf, match o with Some (Done _) => at_end l s (length got) | _ => o end).

(** * Waiting for events *)

(** No code in /repo: what one [mio::Poll::poll] does: it takes some time, and gives events or fails. *)
Record pcall (E : Type) := { pc_time : Z; pc_result : result (list E) }.
Arguments pc_time {E}.
Arguments pc_result {E}.
(** No code in /repo: [poll] with a time limit does not wait longer than it says. *)
Definition punctual {E} (timeout : Z) (c : pcall E) : Prop := (0 <= pc_time c <= timeout)%Z.
(** rosenpass/src/app_server.rs 1530-1550 [perform_mio_poll_and_register_events]: the time that passes, the queue of events, and the outcome;
    every call gets the whole time limit again *)
Fixpoint perform_mio_poll {E} (calls : list (pcall E)) (queue : list E) : Z * list E * option (result unit) :=
  match calls with
  | [] => (0%Z, queue, None)
  | c :: l =>
      match hint (pc_result c) with
      | inl evs => (pc_time c, queue ++ evs, Some (RVal tt))
      | inr (_, Some KInterrupted) => let '(t, q, r) := perform_mio_poll l queue in ((pc_time c + t)%Z, q, r)
      | inr (e, _) => (pc_time c, queue, Some (RErr e))
      end
  end.
