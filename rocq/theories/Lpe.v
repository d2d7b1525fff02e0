(** Model of the length-prefix codec, util/src/length_prefix_encoding/{encoder,decoder}.rs.

    Offsets and buffer lengths are natural numbers, header values are [N] (u64, and [usize] on a
    64-bit machine).  Overflow of [usize] additions is not modelled.  A slice operation out of
    bounds is [Panic]. *)
From Verif Require Import Base.

(** util/src/length_prefix_encoding/encoder.rs:23, decoder.rs:26 *)
Definition HEADER_SIZE : nat := 8.

(** The kinds of [io::Error] the code distinguishes.  util/src/length_prefix_encoding/encoder.rs 280-347 and decoder.rs 257-325 *)
Inductive io_kind := KInterrupted | KWouldBlock | KUnexpectedEof | KOther.

(** Rust slices [l[..n]] and [l[n..]]; out of bounds panics.  No code in /repo: Rust. *)
Definition take_to {E} (n : nat) (l : bytes) : res E bytes :=
  if n <=? length l then Ok (firstn n l) else Panic.
(** No code in /repo: Rust. *)
Definition take_from {E} (n : nat) (l : bytes) : res E bytes :=
  if n <=? length l then Ok (skipn n l) else Panic.

(** No code in /repo: `?` on a [Result]. *)
Definition rbind {E A B} (m : res E A) (f : A -> res E B) : res E B :=
  match m with Ok a => f a | Err e => Err e | Panic => Panic end.
Notation "'let!' x := m 'in' k" := (rbind m (fun x => k))
  (at level 200, x name, m at level 100, k at level 200).

(** Overwriting the start of the subslice [l[off..]] with [data].  No code in /repo: Rust. *)
Definition splice (off : nat) (data l : bytes) : bytes :=
  firstn off l ++ data ++ skipn (off + length data) l.

(** * Decoder *)

(** decoder.rs:154-158 *)
Record dec := { d_header : bytes; d_buf : bytes; d_off : nat }.

(** decoder.rs:109-118 [ReadFromIoError] *)
Inductive rd_err := TooLarge | RIo (k : io_kind).
(** decoder.rs:32-40 [SanityError] *)
Inductive sanity := OutOfBufferBounds | OutOfMessageBounds.

(** decoder.rs:172-176 *)
Definition dec_new (buf : bytes) : dec := {| d_header := zeros 8; d_buf := buf; d_off := 0 |}.
(** decoder.rs:181-183, 581-587 [clear], [zeroize] *)
Definition dec_clear (d : dec) : dec :=
  {| d_header := zeros (length (d_header d)); d_buf := zeros (length (d_buf d)); d_off := 0 |}.

(** decoder.rs:428-435 *)
Definition d_hoff (d : dec) : nat := Nat.min (d_off d) HEADER_SIZE.
Definition d_moff (d : dec) : nat := d_off d - HEADER_SIZE.

(** decoder.rs:501-511 [get_header], [message_size] *)
Definition get_header (d : dec) : option N :=
  if d_hoff d =? HEADER_SIZE then Some (le_dec (d_header d)) else None.

(** decoder.rs:376-383 [ensure_sufficient_msg_buffer], 78-81 [MessageTooLargeError::ensure] *)
Definition ensure_sufficient (d : dec) : res rd_err unit :=
  match get_header d with
  | None => Ok tt
  | Some sz => if (sz <=? N.of_nat (length (d_buf d)))%N then Ok tt else Err TooLarge
  end.

(** decoder.rs:519-530 [message_fragment(_mut)].  The size is at most the buffer length here, so
    the slice [..sz] is in bounds. *)
Definition message_fragment (d : dec) : res rd_err (option bytes) :=
  let! _ := ensure_sufficient d in
  match get_header d with
  | None => Ok None
  | Some sz => let! f := take_to (N.to_nat sz) (d_buf d) in Ok (Some f)
  end.

(** decoder.rs:477-480 [message_buffer_avail], 533-546 [message_fragment_avail(_mut)] *)
Definition message_fragment_avail (d : dec) : res rd_err (option bytes) :=
  let! avail := take_to (d_moff d) (d_buf d) in
  let! f := message_fragment d in
  match f with
  | None => Ok None
  | Some f => let! a := take_to (length avail) f in Ok (Some a)
  end.

(** decoder.rs:549-560 [message_fragment_left(_mut)] *)
Definition message_fragment_left (d : dec) : res rd_err (option bytes) :=
  let! avail := take_to (d_moff d) (d_buf d) in
  let! f := message_fragment d in
  match f with
  | None => Ok None
  | Some f => let! a := take_from (length avail) f in Ok (Some a)
  end.

(** decoder.rs:565-578 [message(_mut)] *)
Definition dec_message (d : dec) : res rd_err (option bytes) :=
  let! f := message_fragment_avail d in
  match f, get_header d with
  | Some f, Some sz => Ok (if (N.of_nat (length f) =? sz)%N then Some f else None)
  | _, _ => Ok None
  end.

(** decoder.rs:443-450 [has_message] *)
Definition has_message (d : dec) : res rd_err bool :=
  let! _ := ensure_sufficient d in
  match get_header d with
  | None => Ok false
  | Some sz => let! a := take_to (d_moff d) (d_buf d) in Ok (N.of_nat (length a) =? sz)%N
  end.

(** decoder.rs:331-351 [next_slice_to_write_to]: which part of the decoder is to be filled
    next, and how many bytes of it. *)
Inductive slot := InHeader (n : nat) | InMessage (n : nat).
Definition slot_len (w : slot) : nat := match w with InHeader n | InMessage n => n end.
Definition next_slot (d : dec) : res rd_err (option slot) :=
  let! h := take_from (d_hoff d) (d_header d) in
  match h with
  | _ :: _ => Ok (Some (InHeader (length h)))
  | [] =>
      let! f := message_fragment_left d in
      match f with
      | Some ((_ :: _) as l) => Ok (Some (InMessage (length l)))
      | _ => Ok None
      end
  end.

(** What a reader does to the slice it is given: it fills a prefix.  decoder.rs 300-325 *)
Definition fill (d : dec) (w : slot) (data : bytes) : dec :=
  match w with
  | InHeader _ => {| d_header := splice (d_hoff d) data (d_header d); d_buf := d_buf d; d_off := d_off d |}
  | InMessage _ => {| d_header := d_header d; d_buf := splice (d_moff d) data (d_buf d); d_off := d_off d |}
  end.

(** decoder.rs:356-371 [advance].  The header is looked up before the offset is changed. *)
Definition dec_advance (count : nat) (d : dec) : dec * res sanity unit :=
  let off := d_off d + count in
  let msg_off := off - HEADER_SIZE in
  if negb (msg_off <=? length (d_buf d)) then (d, Err OutOfBufferBounds)
  else if negb (match get_header d with Some sz => (N.of_nat msg_off <=? sz)%N | None => true end)
  then (d, Err OutOfMessageBounds)
  else ({| d_header := d_header d; d_buf := d_buf d; d_off := off |}, Ok tt).

(** One call of [Read::read].  [Give k] delivers as many bytes of the source as the slice holds,
    but at most [k]; delivering none is end of file.  [RFail] is an error.  A reader that
    returns a number larger than the slice is not modelled.  No code in /repo: the reader of decoder.rs 300-325. *)
Inductive rd_ev := Give (k : nat) | RFail (k : io_kind).

(** decoder.rs:300-323 [read_from_stdio]; also returns what is left of the source. *)
Definition read_from_stdio (d : dec) (e : rd_ev) (src : bytes)
  : dec * bytes * res rd_err (nat * option bytes) :=
  match next_slot d with
  | Panic => (d, src, Panic)
  | Err x => (d, src, Err x)
  | Ok (Some w) =>
      match e with
      | RFail k => (d, src, Err (RIo k))
      | Give k =>
          let data := firstn (Nat.min k (slot_len w)) src in
          let src := skipn (length data) src in
          let d := fill d w data in
          match dec_advance (length data) d with
          | (d, Ok tt) =>
              match dec_message d with
              | Panic => (d, src, Panic)
              | Ok m => (d, src, Ok (length data, m))
              | Err _ => (d, src, Ok (length data, None))
              end
          | (d, _) => (d, src, Panic)
          end
      end
  | Ok None =>
      match dec_message d with
      | Ok m => (d, src, Ok (0, m))
      | Err x => (d, src, Err x)
      | Panic => (d, src, Panic)
      end
  end.

(** decoder.rs:257-285 [read_all_from_stdio], driven by a list of reader events; [None]: the
    loop is still running after these events. *)
Fixpoint read_all (es : list rd_ev) (d : dec) (src : bytes)
  : dec * bytes * option (res rd_err bytes) :=
  match es with
  | [] => (d, src, None)
  | e :: es =>
      match read_from_stdio d e src with
      | (d, src, Ok (_, Some _)) =>
          (* message_mut().unwrap().unwrap() *)
          (d, src, Some (match dec_message d with Ok (Some m) => Ok m | _ => Panic end))
      | (d, src, Ok (0, None)) => (d, src, Some (Err (RIo KUnexpectedEof)))
      | (d, src, Ok (_, None)) => read_all es d src
      | (d, src, Err (RIo KInterrupted)) => read_all es d src
      | (d, src, Err x) => (d, src, Some (Err x))
      | (d, src, Panic) => (d, src, Some Panic)
      end
  end.

(** * Encoder *)

(** encoder.rs:172-176 *)
Record enc := { e_buf : bytes; e_header : bytes; e_pos : nat }.

(** encoder.rs:25-79, the error types *)
Inductive enc_err := PosOutOfBuffer | PosOutOfMessage | PosOutOfHeader | MsgTooLarge | EIo (k : io_kind).

(** encoder.rs:424-436 [decode_header], [message_len] *)
Definition message_len (e : enc) : N := le_dec (e_header e).
(** encoder.rs:449-456 *)
Definition e_hoff (e : enc) : nat := Nat.min (e_pos e) HEADER_SIZE.
Definition e_moff (e : enc) : nat := e_pos e - HEADER_SIZE.

(** encoder.rs:389-391 [message].  A length beyond the buffer panics without converting it
    to a natural number. *)
Definition enc_message (e : enc) : res enc_err bytes :=
  if (message_len e <=? N.of_nat (length (e_buf e)))%N
  then Ok (firstn (N.to_nat (message_len e)) (e_buf e)) else Panic.
(** encoder.rs:399-401 [header_left] *)
Definition header_left (e : enc) : res enc_err bytes := take_from (e_hoff e) (e_header e).
(** encoder.rs:409-411 [message_left] *)
Definition message_left (e : enc) : res enc_err bytes :=
  let! m := enc_message e in take_from (e_moff e) m.

(** encoder.rs:369-381 [next_slice_to_write] *)
Definition next_slice (e : enc) : res enc_err bytes :=
  let! s := header_left e in
  match s with
  | _ :: _ => Ok s
  | [] => message_left e
  end.
(** encoder.rs:384-386 [exhausted] *)
Definition exhausted (e : enc) : res enc_err bool :=
  let! s := next_slice e in Ok (match s with [] => true | _ => false end).

(** encoder.rs:527-546 *)
Definition pos_in_buf (e : enc) : bool := e_moff e <=? length (e_buf e).
Definition pos_in_msg (e : enc) : bool := (N.of_nat (e_moff e) <=? message_len e)%N.
Definition msg_in_buf (e : enc) : bool := (message_len e <=? N.of_nat (length (e_buf e)))%N.

(** encoder.rs:459-466 [set_header] with 513-525 [offset_transaction]: no change on error *)
Definition set_header (h : bytes) (e : enc) : enc * res enc_err unit :=
  let t := {| e_buf := e_buf e; e_header := h; e_pos := e_pos e |} in
  if negb (msg_in_buf t) then (e, Err MsgTooLarge)
  else if negb (pos_in_msg t) then (e, Err PosOutOfMessage) else (t, Ok tt).
(** encoder.rs:469-476 [set_message_len]; the length is converted to u64 *)
Definition set_message_len (n : N) (e : enc) : enc * res enc_err unit := set_header (le_enc 8 n) e.
(** encoder.rs:479-486 [set_writing_position] *)
Definition set_writing_position (p : nat) (e : enc) : enc * res enc_err unit :=
  let t := {| e_buf := e_buf e; e_header := e_header e; e_pos := p |} in
  if negb (pos_in_buf t) then (e, Err PosOutOfBuffer)
  else if negb (pos_in_msg t) then (e, Err PosOutOfMessage) else (t, Ok tt).
(** [.unwrap()] on a [Result]  No code in /repo: used at encoder.rs 191, 256-257, 345, 356 and 491. *)
Definition unwrapped {E A} (r : enc * res E A) : enc * res enc_err A :=
  match r with (e, Ok a) => (e, Ok a) | (e, _) => (e, Panic) end.
(** encoder.rs:489-493 [set_header_offset] *)
Definition set_header_offset (off : nat) (e : enc) : enc * res enc_err unit :=
  if off <=? HEADER_SIZE then unwrapped (set_writing_position off e) else (e, Err PosOutOfHeader).
(** encoder.rs:496-498 [set_message_offset] *)
Definition set_message_offset (off : nat) (e : enc) : enc * res enc_err unit :=
  set_writing_position (off + HEADER_SIZE) e.
(** encoder.rs:501-503 [advance] *)
Definition enc_advance (n : nat) (e : enc) : enc * res enc_err unit :=
  set_writing_position (e_pos e + n) e.
(** encoder.rs:506-511 [set_msg_len_and_position]; the position stays reset on error *)
Definition set_msg_len_and_position (n : N) (p : nat) (e : enc) : enc * res enc_err unit :=
  let e := {| e_buf := e_buf e; e_header := e_header e; e_pos := 0 |} in
  match set_message_len n e with
  | (e, Ok tt) => set_writing_position p e
  | r => r
  end.
(** encoder.rs:255-258 [clear] *)
Definition enc_clear (e : enc) : enc * res enc_err unit :=
  match unwrapped (set_msg_len_and_position 0 0 e) with
  | (e, Ok tt) => unwrapped (set_message_offset 0 e)
  | r => r
  end.
(** encoder.rs:355-357 [restart_write] *)
Definition restart_write (e : enc) : enc * res enc_err unit := unwrapped (set_writing_position 0 e).
(** encoder.rs:360-366 [restart_write_with_new_message]; 81-92: the conversion of
    [PositionOutOfBufferBounds] fails and is unwrapped *)
Definition restart_with (n : N) (e : enc) : enc * res enc_err unit :=
  match set_msg_len_and_position n 0 e with
  | (e, Err PosOutOfBuffer) => (e, Panic)
  | r => r
  end.
(** encoder.rs:180-185 [from_buffer] *)
Definition from_buffer (buf : bytes) : enc * res enc_err unit :=
  enc_clear {| e_buf := buf; e_header := zeros 8; e_pos := 0 |}.
(** encoder.rs:188-193 [from_message] *)
Definition from_message (msg : bytes) : enc * res enc_err unit :=
  match from_buffer msg with
  | (e, Ok tt) => unwrapped (restart_with (N.of_nat (length msg)) e)
  | r => r
  end.
(** encoder.rs:200-204 [from_short_message] *)
Definition from_short_message (msg : bytes) (len : N) : enc * res enc_err unit :=
  match from_message msg with
  | (e, Ok tt) => set_message_len len e
  | r => r
  end.
(** encoder.rs:207-211 [from_parts] *)
Definition enc_from_parts (buf : bytes) (len : N) (pos : nat) : enc * res enc_err unit :=
  match from_buffer buf with
  | (e, Ok tt) => set_msg_len_and_position len pos e
  | r => r
  end.

(** One call of [Write::write]: [Accept k] takes at most [k] bytes of the slice.  No code in /repo: the writer of encoder.rs 335-347. *)
Inductive wr_ev := Accept (k : nat) | WFail (k : io_kind).

(** encoder.rs:335-352 [write_to_stdio]; also returns the bytes the writer took. *)
Definition write_to_stdio (e : enc) (v : wr_ev) : enc * bytes * res enc_err (nat * bool) :=
  match exhausted e with
  | Ok true => (e, [], Ok (0, true))
  | Ok false =>
      match next_slice e, v with
      | Ok s, Accept k =>
          let out := firstn k s in
          match enc_advance (length out) e with
          | (e, Ok tt) =>
              match exhausted e with
              | Ok done => (e, out, Ok (length out, done))
              | _ => (e, out, Panic)
              end
          | (e, _) => (e, out, Panic)
          end
      | Ok _, WFail k => (e, [], Err (EIo k))
      | _, _ => (e, [], Panic)
      end
  | _ => (e, [], Panic)
  end.

(** encoder.rs:280-294 [write_all_to_stdio], driven by a list of writer events; [None]: the loop
    is still running after these events. *)
Fixpoint write_all (vs : list wr_ev) (e : enc) : enc * bytes * option (res enc_err unit) :=
  match vs with
  | [] => (e, [], None)
  | v :: vs =>
      match write_to_stdio e v with
      | (e, out, Ok (_, true)) => (e, out, Some (Ok tt))
      | (e, out, Ok (_, false)) => let '(e, out', r) := write_all vs e in (e, out ++ out', r)
      | (e, out, Err (EIo KInterrupted)) =>
          let '(e, out', r) := write_all vs e in (e, out ++ out', r)
      | (e, out, Err x) => (e, out, Some (Err x))
      | (e, out, Panic) => (e, out, Some Panic)
      end
  end.
