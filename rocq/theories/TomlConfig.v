(** How a configuration file is understood: the derived [Deserialize] and [Serialize] of rosenpass/src/config.rs, rosenpass/src/api/config.rs and
    rp/src/exchange.rs.

    The syntax of toml is outside the repository; here a file is the table it stands for.  What serde makes of the attributes of the
    structures is outside of it as well and modelled after its documentation and its generated code: the fields of a structure are looked for by name, and what
    is left over is offered to the flattened structures one after the other.  A flattened structure takes the entries with the names of
    its fields one after the other, until one of them cannot be read; an optional one that cannot be read is absent, and what it took is gone.  At the end,
    [deny_unknown_fields] refuses entries that nobody took. *)
From Coq Require Import Strings.String.
From Verif Require Import Base Files Config Rp.
Local Open Scope string_scope.
Local Open Scope list_scope.

(** No code in /repo: the values of toml; [TOther] are floating point numbers, dates and times *)
Inductive tval := TStr (s : string) | TInt (z : Z) | TBool (b : bool) | TArr (l : list tval) | TTab (t : list (string * tval)) | TOther (n : nat).
Definition table := list (string * tval).

(** * Values *)

(** No code in /repo: serde's reading of the types of the fields; a path is read as a string *)
Definition de_string (v : tval) : option string := match v with TStr s => Some s | _ => None end.
Definition de_bool (v : tval) : option bool := match v with TBool b => Some b | _ => None end.
Definition de_int (lo hi : Z) (v : tval) : option Z := match v with TInt z => if (Z.leb lo z && Z.leb z hi)%bool then Some z else None | _ => None end.
Definition de_i32 : tval -> option Z := de_int (-2147483648) 2147483647.
Definition de_u32 (v : tval) : option N := option_map Z.to_N (de_int 0 4294967295 v).
Fixpoint de_all {X} (f : tval -> option X) (l : list tval) : option (list X) :=
  match l with
  | [] => Some []
  | v :: l => match f v, de_all f l with Some x, Some r => Some (x :: r) | _, _ => None end
  end.
Definition de_list {X} (f : tval -> option X) (v : tval) : option (list X) := match v with TArr l => de_all f l | _ => None end.
Definition de_strings : tval -> option (list string) := de_list de_string.

(** * Entries *)

(** No code in /repo: the values under a name *)
Definition values (k : string) (t : table) : list tval := map snd (filter (fun e => String.eqb k (fst e)) t).
(** No code in /repo: a field that may be absent.  [None]: it cannot be read, or it is there twice *)
Definition field {X} (f : tval -> option X) (k : string) (t : table) : option (option X) :=
  match values k t with
  | [] => Some None
  | [v] => option_map Some (f v)
  | _ => None
  end.
Definition known (names : list string) (k : string) : bool := existsb (String.eqb k) names.
(** No code in /repo: the entries that are kept for the flattened structures *)
Definition others (names : list string) (t : table) : table := filter (fun e => negb (known names (fst e))) t.
(** No code in /repo: serde's [FlatStructAccess] with the loop over the fields.  [ok]: whether a field is one of the structure, and its values that can be
    read.  The entries taken, if all could be read, and the ones that are left *)
Fixpoint flat_take (ok : string -> option (tval -> bool)) (seen : list string) (t : table) : option table * table :=
  match t with
  | [] => (Some [], [])
  | (k, v) :: t =>
      match ok k with
      | None => let (r, rest) := flat_take ok seen t in (r, (k, v) :: rest)
      | Some f =>
          if known seen k then (None, t)
          else if f v then let (r, rest) := flat_take ok (k :: seen) t in (option_map (cons (k, v)) r, rest)
          else (None, t)
      end
  end.
Definition reads {X} (f : tval -> option X) (v : tval) : bool := match f v with Some _ => true | None => false end.
(** No code in /repo: a field of a flattened structure whose entries could be read *)
Definition taken {X} (f : tval -> option X) (k : string) (t : table) : option X :=
  match values k t with v :: _ => f v | [] => None end.

(** * The configuration of rosenpass *)

(** config.rs 79-87 [Keypair], 39-42: flattened and optional *)
Definition keypair_fields (k : string) : option (tval -> bool) :=
  if known ["public_key"; "secret_key"] k then Some (reads de_string) else None.
Definition de_keypair (t : table) : option keypair * table :=
  let (r, rest) := flat_take keypair_fields [] t in
  (match r with
   | Some r => match taken de_string "public_key" r, taken de_string "secret_key" r with
               | Some pk, Some sk => Some {| k_public := pk; k_secret := sk |}
               | _, _ => None
               end
   | None => None
   end, rest).
(** config.rs 231-244 [WireGuard], 152-154: flattened and optional *)
Definition wg_fields (k : string) : option (tval -> bool) :=
  if known ["device"; "peer"] k then Some (reads de_string) else if String.eqb k "extra_params" then Some (reads de_strings) else None.
Definition de_wg (t : table) : option wireguard * table :=
  let (r, rest) := flat_take wg_fields [] t in
  (match r with
   | Some r => match taken de_string "device" r, taken de_string "peer" r with
               | Some d, Some p =>
                   Some {| wg_device := d; wg_peer := p; wg_extra := match taken de_strings "extra_params" r with Some l => l | None => [] end |}
               | _, _ => None
               end
   | None => None
   end, rest).
(** config.rs 165-197 [RosenpassPeerOskDomainSeparator], 160-162: flattened, and not optional *)
Definition osk_fields (k : string) : option (tval -> bool) :=
  if String.eqb k "osk_organization" then Some (reads de_string) else if String.eqb k "osk_label" then Some (reads de_strings) else None.
Definition de_osk (t : table) : option (option string * option (list string)) * table :=
  let (r, rest) := flat_take osk_fields [] t in
  (option_map (fun r => (taken de_string "osk_organization" r, taken de_strings "osk_label" r)) r, rest).

Section Enums.
(** The notation of toml for a variant that is not a string *)
Context (variant : tval -> option string).
Definition de_variant (v : tval) : option string := match v with TStr s => Some s | _ => variant v end.
(** config.rs 107-112 [Verbosity] and 115-121 [ProtocolVersion] *)
Definition de_verbosity (v : tval) : option verbosity :=
  match de_variant v with
  | Some s => if String.eqb s "Quiet" then Some Quiet else if String.eqb s "Verbose" then Some Verbose else None
  | None => None
  end.
Definition de_version (v : tval) : option bool :=
  match de_variant v with
  | Some s => if String.eqb s "V02" then Some false else if String.eqb s "V03" then Some true else None
  | None => None
  end.

(** config.rs 123-163 [RosenpassPeer] *)
Definition peer_names : list string := ["public_key"; "endpoint"; "pre_shared_key"; "key_out"; "protocol_version"].
Definition de_peer_table (t : table) : option peer :=
  match field de_string "public_key" t, field de_string "endpoint" t, field de_string "pre_shared_key" t, field de_string "key_out" t, field de_version "protocol_version" t with
  | Some (Some pk), Some ep, Some psk, Some out, Some v =>
      let (wg, rest) := de_wg (others peer_names t) in
      let (osk, rest) := de_osk rest in
      match osk, rest with
      | Some (org, label), [] =>
          Some {| p_public := pk; p_endpoint := ep; p_psk := psk; p_key_out := out; p_wg := wg;
                  p_v03 := match v with Some b => b | None => false end; p_org := org; p_label := label |}
      | _, _ => None
      end
  | _, _, _, _, _ => None
  end.
Definition de_peer (v : tval) : option peer := match v with TTab t => de_peer_table t | _ => None end.

(** rosenpass/src/api/config.rs 10-25 [ApiConfig]: no field has a default *)
Record api_config := { ac_paths : list path; ac_listen : list Z; ac_stream : list Z }.
Definition api_names : list string := ["listen_path"; "listen_fd"; "stream_fd"].
Definition de_api (v : tval) : option api_config :=
  match v with
  | TTab t =>
      match field de_strings "listen_path" t, field (de_list de_i32) "listen_fd" t, field (de_list de_i32) "stream_fd" t, others api_names t with
      | Some (Some p), Some (Some l), Some (Some s), [] => Some {| ac_paths := p; ac_listen := l; ac_stream := s |}
      | _, _, _, _ => None
      end
  | _ => None
  end.
(** config.rs 25-32 [empty_api_config]; api/config.rs 49-51 [count_api_sources] *)
Definition empty_api_config : api_config := {| ac_paths := []; ac_listen := []; ac_stream := [] |}.
Definition count_api_sources (a : api_config) : nat := length (ac_paths a) + length (ac_listen a) + length (ac_stream a).

Context {A : Type} (parse_addr : string -> option A).
Definition de_addr (v : tval) : option A := match v with TStr s => parse_addr s | _ => None end.
(** config.rs 37-76 [Rosenpass]; [api]: compiled with the API.  Without it there is no such field *)
Definition config_names (api : bool) : list string := if api then ["api"; "listen"; "verbosity"; "peers"] else ["listen"; "verbosity"; "peers"].
Definition de_config (api : bool) (t : table) : option (config A * api_config) :=
  match (if api then field de_api "api" t else Some None), field (de_list de_addr) "listen" t, field de_verbosity "verbosity" t, field (de_list de_peer) "peers" t with
  | Some a, Some (Some l), Some v, Some (Some ps) =>
      let (kp, rest) := de_keypair (others (config_names api) t) in
      match rest with
      | [] =>
          let a := match a with Some a => a | None => empty_api_config end in
          Some ({| c_keypair := kp; c_listen := l; c_verbosity := match v with Some v => v | None => Quiet end; c_peers := ps;
                   c_api := count_api_sources a; c_path := "" |}, a)
      | _ => None
      end
  | _, _, _, _ => None
  end.

(** * Writing it *)

(** No code in /repo: serde's entries for the fields; what is absent is left out *)
Definition ser_opt {X} (f : X -> tval) (k : string) (x : option X) : table := match x with Some x => [(k, f x)] | None => [] end.
Definition ser_strings (l : list string) : tval := TArr (map TStr l).
(** config.rs 123-163 *)
Definition ser_peer (p : peer) : table :=
  [("public_key", TStr (p_public p))] ++ ser_opt TStr "endpoint" (p_endpoint p) ++ ser_opt TStr "pre_shared_key" (p_psk p) ++ ser_opt TStr "key_out" (p_key_out p)
  ++ match p_wg p with Some w => [("device", TStr (wg_device w)); ("peer", TStr (wg_peer w)); ("extra_params", ser_strings (wg_extra w))] | None => [] end
  ++ [("protocol_version", TStr (if p_v03 p then "V03" else "V02"))]
  ++ ser_opt TStr "osk_organization" (p_org p) ++ ser_opt ser_strings "osk_label" (p_label p).
(** api/config.rs 10-25 *)
Definition ser_api (a : api_config) : tval :=
  TTab [("listen_path", ser_strings (ac_paths a)); ("listen_fd", TArr (map TInt (ac_listen a))); ("stream_fd", TArr (map TInt (ac_stream a)))].
Context (show_addr : A -> string).
(** config.rs 37-76, written by 309-314 [store]; paths are taken to be text, for others [store] panics *)
Definition ser_config (api : bool) (c : config A) (a : api_config) : table :=
  match c_keypair c with Some k => [("public_key", TStr (k_public k)); ("secret_key", TStr (k_secret k))] | None => [] end
  ++ (if api then [("api", ser_api a)] else [])
  ++ [("listen", TArr (map (fun a => TStr (show_addr a)) (c_listen c))); ("verbosity", TStr (match c_verbosity c with Quiet => "Quiet" | Verbose => "Verbose" end));
      ("peers", TArr (map (fun p => TTab (ser_peer p)) (c_peers c)))].

(** * The configuration of rp *)

Context (parse_sock : string -> option addr).
Definition de_sock (v : tval) : option addr := match v with TStr s => parse_sock s | _ => None end.
(** rp/src/exchange.rs 65-80 [ExchangePeer] *)
Definition xpeer_names : list string := ["public_keys_dir"; "endpoint"; "persistent_keepalive"; "allowed_ips"; "protocol_version"].
Definition de_xpeer (v : tval) : option xpeer :=
  match v with
  | TTab t =>
      match field de_string "public_keys_dir" t, field de_sock "endpoint" t, field de_u32 "persistent_keepalive" t, field de_string "allowed_ips" t,
            field de_version "protocol_version" t, others xpeer_names t with
      | Some (Some d), Some e, Some k, Some i, Some v, [] =>
          Some {| x_dir := d; x_endpoint := e; x_keepalive := k; x_ips := i; x_v03 := match v with Some b => b | None => false end |}
      | _, _, _, _, _, _ => None
      end
  | _ => None
  end.
(** rp/src/exchange.rs 82-99 [ExchangeOptions] *)
Definition xopts_names : list string := ["verbose"; "private_keys_dir"; "dev"; "ip"; "listen"; "peers"].
Definition de_xopts (t : table) : option xopts :=
  match field de_bool "verbose" t, field de_string "private_keys_dir" t, field de_string "dev" t, field de_string "ip" t, field de_sock "listen" t,
        field (de_list de_xpeer) "peers" t, others xopts_names t with
  | Some (Some v), Some (Some d), Some dev, Some ip, Some l, Some (Some ps), [] =>
      Some {| o_verbose := v; o_dir := d; o_dev := dev; o_ip := ip; o_listen := l; o_peers := ps |}
  | _, _, _, _, _, _, _ => None
  end.
End Enums.
