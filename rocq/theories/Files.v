(** Files, and how keys are read from and written to them: util/src/file.rs, util/src/b64.rs, secret-memory/src/secret.rs and
    secret-memory/src/public.rs.

    A path is a string and names one node; links, and different spellings of one path, are not modelled.  A file has its
    permission bits and its contents. *)
From Coq Require Import Strings.Ascii Strings.String.
From Verif Require Import Base Lpe.
Local Close Scope string_scope.
Local Open Scope list_scope.

(** No code in /repo: std::path. *)
Definition path := string.
(** [NOther]: a device, pipe or socket; what is written to it goes elsewhere  No code in /repo: the file system. *)
Inductive node := NFile (mode : N) (data : bytes) | NDir (mode : N) | NOther (mode : N).
(** No code in /repo: the file system. *)
Definition fs := path -> option node.
(** No code in /repo: the file system. *)
Definition fset (f : fs) (p : path) (n : node) : fs := fun q => if String.eqb q p then Some n else f q.

(** std::path::Path [exists], [is_file], [join] with a relative path  No code in /repo: used at rosenpass/src/config.rs 345-420 and rp/src/key.rs 38-88. *)
Definition exists_ (f : fs) (p : path) : bool := match f p with Some _ => true | None => false end.
Definition is_file (f : fs) (p : path) : bool := match f p with Some (NFile _ _) => true | _ => false end.
(** No code in /repo: used by [join]. *)
Fixpoint ends_slash (s : string) : bool :=
  match s with EmptyString => false | String c EmptyString => Ascii.eqb c "/" | String _ s => ends_slash s end.
Definition join (d n : string) : path := (if String.eqb d "" || ends_slash d then d ++ n else d ++ "/" ++ n)%string.
(** The contents that opening for reading gives; what a device or pipe gives is not modelled  No code in /repo: behind util/src/file.rs 58-63. *)
Definition contents (f : fs) (p : path) : option bytes := match f p with Some (NFile _ d) => Some d | _ => None end.
(** [Metadata::permissions().mode()]: the whole mode word, the type of the node included (st_mode) *)
Definition S_IFREG : N := 32768.  (* 0o100000 *)
Definition S_IFDIR : N := 16384.  (* 0o040000 *)
Definition S_IFIFO : N := 4096.   (* 0o010000, for [NOther] *)
(** No code in /repo: used at rp/src/key.rs 39. *)
Definition st_mode (n : node) : N :=
  match n with NFile m _ => N.lor S_IFREG m | NDir m => N.lor S_IFDIR m | NOther m => N.lor S_IFIFO m end.

(** How opening a file and writing to it goes: it cannot be opened, it ends after [n] bytes, or it is completed.  A crash
    leaves what the failure at the same point leaves.  No code in /repo: the system behind util/src/file.rs 43-51. *)
Inductive wplan := WNoOpen | WStops (n : nat) | WAll.
(** open(2) with O_CREAT and O_TRUNC, the mode of a new file cut by the umask; then write_all.
    The flag tells whether the call returns [Ok].  No code in /repo: behind util/src/file.rs 43-51. *)
Definition write_file (umask mode : N) (w : wplan) (p : path) (d : bytes) (f : fs) : fs * bool :=
  let d' := match w with WStops n => firstn n d | _ => d end in
  let ok := match w with WAll => true | _ => false end in
  match w with
  | WNoOpen => (f, false)
  | _ =>
      match f p with
      | Some (NDir _) => (f, false)
      | Some (NOther _) => (f, ok)
      | Some (NFile m _) => (fset f p (NFile m d'), ok)
      | None => (fset f p (NFile (N.ldiff mode umask) d'), ok)
      end
  end.

(** util/src/file.rs 43-51 [fopen_w], followed by [write_all] as all its callers do *)
Definition M_PUBLIC : N := 420.  (* 0o644 *)
Definition M_SECRET : N := 384.  (* 0o600 *)
(** std::fs::write creates files with 0o666  Used at public.rs 131-134. *)
Definition M_DEFAULT : N := 438.

(** secret.rs 360-363 [Secret::store_secret] *)
Definition store_secret (umask : N) (w : wplan) (p : path) (d : bytes) (f : fs) : fs * bool := write_file umask M_SECRET w p d f.
(** public.rs 131-134 [Public::store] *)
Definition store_public (umask : N) (w : wplan) (p : path) (d : bytes) (f : fs) : fs * bool := write_file umask M_DEFAULT w p d f.

(** file.rs 179-184 [read_exact_to_end] and 58-65 [fopen_r]; secret.rs 289-296, public.rs 120-124 [load]: a value of [n] bytes *)
Definition load (n : N) (p : path) (f : fs) : option bytes :=
  match contents f p with
  | Some d => if N.eqb (N.of_nat (length d)) n then Some d else None
  | None => None
  end.

(** The standard alphabet of Base64 and its inverse *)
Definition b64_char (v : N) : byte :=
  if N.ltb v 26 then n2b (65 + v)
  else if N.ltb v 52 then n2b (97 + (v - 26))
  else if N.ltb v 62 then n2b (48 + (v - 52))
  else if N.eqb v 62 then x2b else x2f.
Definition b64_val (c : byte) : option N :=
  let n := b2n c in
  if N.leb 65 n && N.leb n 90 then Some (n - 65)%N
  else if N.leb 97 n && N.leb n 122 then Some (n - 97 + 26)%N
  else if N.leb 48 n && N.leb n 57 then Some (n - 48 + 52)%N
  else if N.eqb n 43 then Some 62%N
  else if N.eqb n 47 then Some 63%N
  else None.

(** The text of padded Base64, three bytes at a time *)
Definition b64_3 (a b c : N) : bytes :=
  [b64_char (a / 4); b64_char ((a mod 4) * 16 + b / 16); b64_char ((b mod 16) * 4 + c / 64); b64_char (c mod 64)]%N.
Fixpoint b64_text (d : bytes) : bytes :=
  match d with
  | a :: b :: c :: d => b64_3 (b2n a) (b2n b) (b2n c) ++ b64_text d
  | [a; b] => firstn 3 (b64_3 (b2n a) (b2n b) 0) ++ [x3d]
  | [a] => firstn 2 (b64_3 (b2n a) 0 0) ++ [x3d; x3d]
  | [] => []
  end.

(** What a text stands for, if it is padded Base64 with no bits left over *)
Definition b64_data4 (a b c d : N) : N * N * N :=
  (a * 4 + b / 16, (b mod 16) * 16 + c / 4, (c mod 4) * 64 + d)%N.
Fixpoint b64_data (t : bytes) : option bytes :=
  match t with
  | [] => Some []
  | a :: b :: c :: d :: t' =>
      match b64_val a, b64_val b with
      | Some va, Some vb =>
          if byte_eqb d x3d then
            match t' with
            | _ :: _ => None
            | [] =>
                if byte_eqb c x3d
                then if N.eqb (vb mod 16) 0 then let '(x, _, _) := b64_data4 va vb 0 0 in Some [n2b x] else None
                else match b64_val c with
                     | Some vc => if N.eqb (vc mod 4) 0 then let '(x, y, _) := b64_data4 va vb vc 0 in Some [n2b x; n2b y] else None
                     | None => None
                     end
            end
          else
            match b64_val c, b64_val d, b64_data t' with
            | Some vc, Some vd, Some r => let '(x, y, z) := b64_data4 va vb vc vd in Some (n2b x :: n2b y :: n2b z :: r)
            | _, _, _ => None
            end
      | _, _ => None
      end
  | _ => None
  end.

(** b64.rs 97-101 [b64_encode] into a buffer of [size] bytes *)
Definition b64_encode (size : nat) (d : bytes) : option bytes :=
  if Nat.leb (length (b64_text d)) size then Some (b64_text d) else None.

(** b64.rs 62-78 [b64_decode] into a buffer with contents [out].  The text is empty: 63 fails.  It stands for no more bytes
    than the buffer has: they are put in front and what follows them stays; base64ct's [InvalidLength], which it gives if
    the buffer is longer, is passed over (66).  It stands for more: they do not fit (71-77).
    What base64ct does with a text that is not Base64 is outside the repository: [junk] is any answer. *)
Definition b64_decode (junk : bytes -> bytes -> option bytes) (t out : bytes) : option bytes :=
  match t with
  | [] => None
  | _ =>
      match b64_data t with
      | Some d => if Nat.leb (length d) (length out) then Some (d ++ skipn (length d) out) else None
      | None => match junk t out with Some r => if Nat.eqb (length r) (length out) then Some r else None | None => None end
      end
  end.

(** secret.rs 323-336 [Secret::store_b64] and public.rs 165-174 [Public::store_b64] with a buffer of [size] bytes *)
Definition store_b64 (mode umask : N) (size : nat) (w : wplan) (p : path) (d : bytes) (f : fs) : fs * bool :=
  match b64_encode size d with
  | Some t => write_file umask mode w p t f
  | None => (f, false)
  end.
(** file.rs 114-126 [read_slice_to_end], secret.rs 303-316 and public.rs 142-158 [load_b64]: the value is read into [out], which is
    random for a secret (305) and zero for a public value (147) *)
Definition load_b64 (junk : bytes -> bytes -> option bytes) (size : nat) (out : bytes) (p : path) (f : fs) : option bytes :=
  match contents f p with
  | Some t => if Nat.leb (length t) size then b64_decode junk t out else None
  | None => None
  end.
