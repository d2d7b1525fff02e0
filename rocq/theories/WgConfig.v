(** * From the WireGuard part of a peer's configuration to the call of a broker

    rosenpass/src/cli.rs 470-482, wireguard-broker/src/brokers/native_unix.rs, wireguard-broker/src/api/config.rs. *)
From Coq Require Import Strings.String.
From Verif Require Import Base Broker Files Config Rp.
Local Open Scope list_scope.

(** * postcard

    The crate is outside the repository; it is called in native_unix.rs 254 ([to_allocvec]) and 296 ([from_bytes]).  Modelled is what
    its wire format prescribes for a vector of strings: a number is written seven bits at a time, least first, each byte but the last
    with its top bit set; a vector as its length and its elements; a string as its length and its bytes. *)

(** [fuel]: a [usize] takes no more than ten bytes.  wireguard-broker/src/brokers/native_unix.rs 254 *)
Fixpoint varint (fuel : nat) (n : N) : bytes :=
  match fuel with
  | 0 => []
  | S f => if N.ltb n 128 then [n2b n] else n2b (n mod 128 + 128) :: varint f (n / 128)
  end.
Definition VARINT_MAX : nat := 10.
(** Reading a number; what does not fit in 64 bits is refused.  wireguard-broker/src/brokers/native_unix.rs 296 *)
Fixpoint take_varint (fuel : nat) (d : bytes) : option (N * bytes) :=
  match fuel, d with
  | S f, b :: d =>
      if N.ltb (b2n b) 128
      then if (Nat.eqb f 0 && N.ltb 1 (b2n b))%bool then None else Some (b2n b, d)
      else match take_varint f d with
           | Some (n, d) => Some ((b2n b - 128 + 128 * n)%N, d)
           | None => None
           end
  | _, _ => None
  end.
Definition enc_string (s : bytes) : bytes := varint VARINT_MAX (N.of_nat (length s)) ++ s.
(** wireguard-broker/src/brokers/native_unix.rs 254 [to_allocvec] *)
Definition to_allocvec (l : list bytes) : bytes := varint VARINT_MAX (N.of_nat (length l)) ++ flat_map enc_string l.

Section Utf8.
(** What [std::str::from_utf8] accepts. *)
Context (utf8 : bytes -> bool).
(** A string is refused when there are fewer bytes than announced, or when they are not text.
    wireguard-broker/src/brokers/native_unix.rs 296 *)
Definition take_string (d : bytes) : option (bytes * bytes) :=
  match take_varint VARINT_MAX d with
  | Some (n, d) =>
      if N.leb n (N.of_nat (length d))
      then let s := firstn (N.to_nat n) d in
           if utf8 s then Some (s, skipn (N.to_nat n) d) else None
      else None
  | None => None
  end.
Fixpoint take_strings (n : nat) (d : bytes) : option (list bytes) :=
  match n with
  | 0 => Some []
  | S n => match take_string d with
           | Some (s, d) => match take_strings n d with Some l => Some (s :: l) | None => None end
           | None => None
           end
  end.
(** native_unix.rs 296 [from_bytes]: what is left over is not looked at.  Every element takes a byte, so that a number of elements greater
    than that of the bytes is refused; the model says so at once. *)
Definition from_bytes (d : bytes) : option (list bytes) :=
  match take_varint VARINT_MAX d with
  | Some (n, d) => if N.leb n (N.of_nat (length d)) then take_strings (N.to_nat n) d else None
  | None => None
  end.

(** * The configuration of a peer *)

(** native_unix.rs 175-185 [NativeUnixBrokerConfigBase] *)
Record wg_base := { b_interface : bytes; b_peer_id : bytes; b_extra : bytes }.
Definition str (s : string) : bytes := list_byte_of_string s.
(** cli.rs 470-482 with native_unix.rs 214-225 [peer_id_b64] and 250-260 [extra_params_ser]; [junk]: see [b64_decode] in Files.v *)
Definition wg_base_of (junk : bytes -> bytes -> option bytes) (w : wireguard) : option wg_base :=
  match b64_decode junk (str (wg_peer w)) (zeros WG_PEER_LEN) with
  | Some id => Some {| b_interface := str (wg_device w); b_peer_id := id; b_extra := to_allocvec (map str (wg_extra w)) |}
  | None => None
  end.
(** native_unix.rs 263-272 [create_config], called by app_server.rs 445-453 *)
Definition create_config (b : wg_base) (psk : bytes) : bconfig :=
  {| g_iface := b_interface b; g_peer := b_peer_id b; g_psk := psk; g_extra := b_extra b |}.

(** * The brokers *)

(** native_unix.rs 288-304 [try_from], then 82-128 [set_psk] up to the start of `wg` *)
Definition native_call (c : bconfig) : option wg_call :=
  if utf8 (g_iface c)
  then match from_bytes (g_extra c) with
       | Some extra => wg_set (string_of_list_byte (g_iface c)) (g_peer c) (g_psk c) (map string_of_list_byte extra)
       | None => None
       end
  else None.

End Utf8.

(** api/config.rs 23-33 [from]: a configuration made with [NetworkBrokerConfigBuilder], for any broker *)
Definition network_config (iface peer psk : bytes) : bconfig := {| g_iface := iface; g_peer := peer; g_psk := psk; g_extra := [] |}.
