(** The configuration and the commands of `rosenpass`: rosenpass/src/config.rs and rosenpass/src/cli.rs.

    What clap does with the command line, what toml does with a configuration file and what the resolver does with a name are
    outside the repository: clap's result is the argument of the functions here, toml and the resolver are any functions. *)
From Coq Require Import Strings.Ascii Strings.String.
From Verif Require Import Base Files.
Local Open Scope string_scope.
Local Open Scope list_scope.

(** config.rs 81-87 [Keypair], 109-112 [Verbosity], 233-244 [WireGuard] *)
Record keypair := { k_public : path; k_secret : path }.
Inductive verbosity := Quiet | Verbose.
Record wireguard := { wg_device : string; wg_peer : string; wg_extra : list string }.
(** config.rs 126-162 [RosenpassPeer] with 168-197 [RosenpassPeerOskDomainSeparator] *)
Record peer := {
  p_public : path; p_endpoint : option string; p_psk : option path; p_key_out : option path; p_wg : option wireguard;
  p_v03 : bool; p_org : option string; p_label : option (list string)
}.
(** [Default] of [RosenpassPeer]  rosenpass/src/config.rs 124 [derive(Default)] *)
Definition peer0 : peer :=
  {| p_public := ""; p_endpoint := None; p_psk := None; p_key_out := None; p_wg := None; p_v03 := false; p_org := None; p_label := None |}.
(** 39-76 [Rosenpass]; [c_api] counts the sources in [api], api/config.rs 49-51; [A]: socket addresses *)
Record config (A : Type) := {
  c_keypair : option keypair; c_listen : list A; c_verbosity : verbosity; c_peers : list peer; c_api : nat; c_path : path
}.
Arguments c_keypair {A}. Arguments c_listen {A}. Arguments c_verbosity {A}. Arguments c_peers {A}. Arguments c_api {A}. Arguments c_path {A}.
Arguments Build_config {A}.

Section Config.
Context {A : Type}.
(** [to_socket_addrs] *)
Variable resolve : string -> option (list A).

(** rosenpass/src/config.rs 39-113: assignments to single fields, here and in the next definitions *)
Definition with_keypair (c : config A) k : config A := {| c_keypair := k; c_listen := c_listen c; c_verbosity := c_verbosity c; c_peers := c_peers c; c_api := c_api c; c_path := c_path c |}.
Definition with_listen (c : config A) l : config A := {| c_keypair := c_keypair c; c_listen := l; c_verbosity := c_verbosity c; c_peers := c_peers c; c_api := c_api c; c_path := c_path c |}.
Definition with_verbosity (c : config A) v : config A := {| c_keypair := c_keypair c; c_listen := c_listen c; c_verbosity := v; c_peers := c_peers c; c_api := c_api c; c_path := c_path c |}.
Definition with_peers (c : config A) p : config A := {| c_keypair := c_keypair c; c_listen := c_listen c; c_verbosity := c_verbosity c; c_peers := p; c_api := c_api c; c_path := c_path c |}.
Definition with_api (c : config A) n : config A := {| c_keypair := c_keypair c; c_listen := c_listen c; c_verbosity := c_verbosity c; c_peers := c_peers c; c_api := n; c_path := c_path c |}.
Definition with_path (c : config A) p : config A := {| c_keypair := c_keypair c; c_listen := c_listen c; c_verbosity := c_verbosity c; c_peers := c_peers c; c_api := c_api c; c_path := p |}.

(** rosenpass/src/config.rs 124-163: assignments to single fields, here and in the next definitions *)
Definition with_public (p : peer) x : peer := {| p_public := x; p_endpoint := p_endpoint p; p_psk := p_psk p; p_key_out := p_key_out p; p_wg := p_wg p; p_v03 := p_v03 p; p_org := p_org p; p_label := p_label p |}.
Definition with_endpoint (p : peer) x : peer := {| p_public := p_public p; p_endpoint := x; p_psk := p_psk p; p_key_out := p_key_out p; p_wg := p_wg p; p_v03 := p_v03 p; p_org := p_org p; p_label := p_label p |}.
Definition with_psk (p : peer) x : peer := {| p_public := p_public p; p_endpoint := p_endpoint p; p_psk := x; p_key_out := p_key_out p; p_wg := p_wg p; p_v03 := p_v03 p; p_org := p_org p; p_label := p_label p |}.
Definition with_key_out (p : peer) x : peer := {| p_public := p_public p; p_endpoint := p_endpoint p; p_psk := p_psk p; p_key_out := x; p_wg := p_wg p; p_v03 := p_v03 p; p_org := p_org p; p_label := p_label p |}.
Definition with_wg (p : peer) x : peer := {| p_public := p_public p; p_endpoint := p_endpoint p; p_psk := p_psk p; p_key_out := p_key_out p; p_wg := x; p_v03 := p_v03 p; p_org := p_org p; p_label := p_label p |}.

(** config.rs 487-498 [Rosenpass::new] *)
Definition new_config (k : option keypair) : config A :=
  {| c_keypair := k; c_listen := []; c_verbosity := Quiet; c_peers := []; c_api := 0; c_path := "" |}.

(** * parse_args, 534-720 *)

(** config.rs 537-551 [State] *)
Inductive pstate :=
| Own | OwnPublicKey | OwnSecretKey | OwnListen | Peer | PeerPsk | PeerPublicKey | PeerEndpoint | PeerOutfile
| PeerWireguardDev | PeerWireguardPeer | PeerWireguardExtraArgs.
Definition pstate_eqb (a b : pstate) : bool :=
  match a, b with
  | Own, Own | OwnPublicKey, OwnPublicKey | OwnSecretKey, OwnSecretKey | OwnListen, OwnListen | Peer, Peer | PeerPsk, PeerPsk
  | PeerPublicKey, PeerPublicKey | PeerEndpoint, PeerEndpoint | PeerOutfile, PeerOutfile | PeerWireguardDev, PeerWireguardDev
  | PeerWireguardPeer, PeerWireguardPeer | PeerWireguardExtraArgs, PeerWireguardExtraArgs => true
  | _, _ => false
  end.
(** The variables of the loop: [state], [already_set], [current_peer] and [config]  rosenpass/src/config.rs 553-558 *)
Record pvars := { v_state : pstate; v_set : list pstate; v_peer : option peer; v_cfg : config A }.
(** rosenpass/src/config.rs 578, 582: [already_set.contains] *)
Definition already (v : pvars) (s : pstate) : bool := existsb (pstate_eqb s) (v_set v).
(** rosenpass/src/config.rs 562: the next state, all else unchanged *)
Definition vgo (s : pstate) (v : pvars) : pvars := {| v_state := s; v_set := v_set v; v_peer := v_peer v; v_cfg := v_cfg v |}.
(** An arm that [ensure!]s [already_set.insert(mark)] and goes on to state [next]; errors carry nothing  rosenpass/src/config.rs 592-711 *)
Definition once (mark next : pstate) (v : pvars) (p : option peer) (c : config A) : res unit pvars :=
  if already v mark then Err tt else Ok {| v_state := next; v_set := mark :: v_set v; v_peer := p; v_cfg := c |}.
(** config.rs 596, 604: config.keypair.as_mut().unwrap() *)
Definition set_public (c : config A) (pk : path) : option (config A) :=
  match c_keypair c with Some k => Some (with_keypair c (Some {| k_public := pk; k_secret := k_secret k |})) | None => None end.
Definition set_secret (c : config A) (sk : path) : option (config A) :=
  match c_keypair c with Some k => Some (with_keypair c (Some {| k_public := k_public k; k_secret := sk |})) | None => None end.

(** config.rs 561-712: one argument *)
Definition parse_arg (v : pvars) (arg : string) : res unit pvars :=
  let c := v_cfg v in
  match v_state v, v_peer v with
  | Own, None =>
      if String.eqb arg "public-key" then Ok (vgo OwnPublicKey v)
      else if String.eqb arg "secret-key" then Ok (vgo OwnSecretKey v)
      else if String.eqb arg "private-key" then Ok (vgo OwnSecretKey v)
      else if String.eqb arg "listen" then Ok (vgo OwnListen v)
      else if String.eqb arg "verbose" then
        Ok {| v_state := Own; v_set := v_set v; v_peer := None; v_cfg := with_verbosity c Verbose |}
      else if String.eqb arg "peer" then
        if negb (already v OwnPublicKey) then Err tt
        else if negb (already v OwnSecretKey) then Err tt
        else Ok {| v_state := Peer; v_set := []; v_peer := Some peer0; v_cfg := c |}
      else Err tt (* 687-689 *)
  | OwnPublicKey, None =>
      if already v OwnPublicKey then Err tt
      else match set_public c arg with
           | Some c => Ok {| v_state := Own; v_set := OwnPublicKey :: v_set v; v_peer := None; v_cfg := c |}
           | None => Panic
           end
  | OwnSecretKey, None =>
      if already v OwnSecretKey then Err tt
      else match set_secret c arg with
           | Some c => Ok {| v_state := Own; v_set := OwnSecretKey :: v_set v; v_peer := None; v_cfg := c |}
           | None => Panic
           end
  | OwnListen, None =>
      match resolve arg with
      | Some l => Ok {| v_state := Own; v_set := OwnListen :: v_set v; v_peer := None; v_cfg := with_listen c (c_listen c ++ l) |}
      | None => Err tt
      end
  | Peer, Some p =>
      if String.eqb arg "peer" then
        Ok {| v_state := Peer; v_set := []; v_peer := Some peer0; v_cfg := with_peers c (c_peers c ++ [p]) |}
      else if String.eqb arg "public-key" then Ok (vgo PeerPublicKey v)
      else if String.eqb arg "endpoint" then Ok (vgo PeerEndpoint v)
      else if String.eqb arg "preshared-key" then Ok (vgo PeerPsk v)
      else if String.eqb arg "outfile" then Ok (vgo PeerOutfile v)
      else if String.eqb arg "wireguard" then Ok (vgo PeerWireguardDev v)
      else Err tt (* 694-696 *)
  | PeerPublicKey, Some p => once PeerPublicKey Peer v (Some (with_public p arg)) c
  | PeerEndpoint, Some p => once PeerEndpoint Peer v (Some (with_endpoint p (Some arg))) c
  | PeerPsk, Some p => once PeerEndpoint Peer v (Some (with_psk p (Some arg))) c (* 644: the mark of the endpoint *)
  | PeerOutfile, Some p => once PeerOutfile Peer v (Some (with_key_out p (Some arg))) c
  | PeerWireguardDev, Some p =>
      if already v PeerWireguardDev then Err tt
      else match p_wg p with
           | Some _ => Panic (* 661 assert! *)
           | None => once PeerWireguardDev PeerWireguardPeer v (Some (with_wg p (Some {| wg_device := arg; wg_peer := ""; wg_extra := [] |}))) c
           end
  | PeerWireguardPeer, Some p =>
      if already v PeerWireguardPeer then Err tt
      else match p_wg p with
           | None => Panic (* 674 expect *)
           | Some w => once PeerWireguardPeer PeerWireguardExtraArgs v
                         (Some (with_wg p (Some {| wg_device := wg_device w; wg_peer := arg; wg_extra := wg_extra w |}))) c
           end
  | PeerWireguardExtraArgs, Some p =>
      if String.eqb arg "peer" then
        Ok {| v_state := Peer; v_set := []; v_peer := Some peer0; v_cfg := with_peers c (c_peers c ++ [p]) |}
      else match p_wg p with
           | None => Panic (* 678-682 expect *)
           | Some w => Ok {| v_state := PeerWireguardExtraArgs; v_set := v_set v;
                             v_peer := Some (with_wg p (Some {| wg_device := wg_device w; wg_peer := wg_peer w; wg_extra := wg_extra w ++ [arg] |}));
                             v_cfg := c |}
           end
  | (Own | OwnPublicKey | OwnSecretKey | OwnListen), Some _ => Panic (* 690-692 *)
  | _, None => Panic (* 697-710 *)
  end.
Fixpoint parse_run (v : pvars) (args : list string) : res unit pvars :=
  match args with
  | [] => Ok v
  | a :: args => match parse_arg v a with Ok v => parse_run v args | Err e => Err e | Panic => Panic end
  end.
Definition parse_init : pvars :=
  {| v_state := Own; v_set := []; v_peer := None; v_cfg := new_config (Some {| k_public := ""; k_secret := "" |}) |}.
(** config.rs 714-719 *)
Definition parse_end (v : pvars) : config A :=
  match v_peer v with Some p => with_peers (v_cfg v) (c_peers (v_cfg v) ++ [p]) | None => v_cfg v end.
Definition parse_args (args : list string) : res unit (config A) :=
  match parse_run parse_init args with Ok v => Ok (parse_end v) | Err e => Err e | Panic => Panic end.

(** * Reading a configuration file *)

(** config.rs 963-979 [resolve_path_with_tilde]: the part after `~` and the slashes after it, if that is the first segment *)
Fixpoint drop_slashes (s : string) : string :=
  match s with String "/"%char s' => drop_slashes s' | _ => s end.
Definition resolve_tilde (home p : path) : path :=
  match p with
  | String "~"%char EmptyString => home
  | String "~"%char (String "/"%char s) => match drop_slashes s with EmptyString => home | s => join home s end
  | _ => p
  end.
Definition resolve_peer (home : path) (p : peer) : peer :=
  with_key_out (with_psk (with_public p (resolve_tilde home (p_public p))) (option_map (resolve_tilde home) (p_psk p)))
    (option_map (resolve_tilde home) (p_key_out p)).
(** config.rs 275-300 [load]; a home directory is known *)
Definition load_config (toml : bytes -> option (config A)) (home : path) (p : path) (f : fs) : option (config A) :=
  match contents f p with
  | None => None
  | Some d =>
      match toml d with
      | None => None
      | Some c =>
          let c := with_keypair c (option_map (fun k => {| k_public := resolve_tilde home (k_public k); k_secret := resolve_tilde home (k_secret k) |}) (c_keypair c)) in
          Some (with_path (with_peers c (map (resolve_peer home) (c_peers c))) p)
      end
  end.

(** * Checks *)

(** protocol/basic_types.rs: the sizes of the static keys, of Classic McEliece 460896 *)
Definition SPK_LEN : N := 524160.
Definition SSK_LEN : N := 13608.

(** secret.rs 289-296 or public.rs 120-124, 301-305 [load] succeeds *)
Definition loads (n : N) (p : path) (f : fs) : bool := match load n p f with Some _ => true | None => false end.
(** config.rs 200-211 [org_and_label], as far as whether it fails *)
Definition osk_ok (p : peer) : bool :=
  match p_org p, p_label p with None, None | Some _, Some _ => true | _, _ => false end.
(** config.rs 376-420: one peer *)
Definition validate_peer (f : fs) (p : peer) : bool :=
  is_file f (p_public p) && loads SPK_LEN (p_public p) f
  && match p_endpoint p with Some e => match resolve e with Some _ => true | None => false end | None => true end
  && match p_key_out p with
     | Some _ => true
     | None => match p_wg p with Some w => negb (String.eqb (wg_device w) "" || String.eqb (wg_peer w) "") | None => false end
     end
  && osk_ok p.
(** config.rs 345-423 [validate]; 346-374: the keypair *)
Definition validate (f : fs) (c : config A) : bool :=
  match c_keypair c with
  | Some k => is_file f (k_public k) && loads SPK_LEN (k_public k) f && is_file f (k_secret k) && loads SSK_LEN (k_secret k) f
  | None => true
  end && forallb (validate_peer f) (c_peers c).
(** config.rs 440-453 [check_usefullness], with the API compiled in or not *)
Definition useful (api : bool) (c : config A) : bool :=
  match c_keypair c with Some _ => true | None => api && Nat.ltb 0 (c_api c) end.

(** * Starting the server, cli.rs 435-502 [event_loop] up to 499 *)

Variable junk : bytes -> bytes -> option bytes.
(** A peer as it is given to [add_peer]: its preshared key, public key, key file, WireGuard interface with the id of the WireGuard peer
    and the further parameters, endpoint, version and domain of the output key (none: the default)  rosenpass/src/cli.rs 470-500 *)
Record srv_peer := {
  s_psk : option bytes; s_pk : bytes; s_out : option path; s_wg : option (string * bytes * list string); s_endpoint : option string;
  s_v03 : bool; s_domain : option (string * list string)
}.
(** rosenpass/src/cli.rs 443-500: the arguments of [AppServer::new], and the peers *)
Record server := { s_keys : option (bytes * bytes); s_listen : list A; s_peers : list srv_peer }.
(** rosenpass/src/cli.rs 440 *)
Definition MAX_PSK_SIZE : nat := 1000.
(** cli.rs 470-499; [rand]: what is in the buffer before the preshared key is read to it *)
Definition start_peer (rand : bytes) (f : fs) (p : peer) : option srv_peer :=
  let wg := match p_wg p with
            | None => Some None
            | Some w => match b64_decode junk (list_byte_of_string (wg_peer w)) (zeros 32) with
                        | Some id => Some (Some (wg_device w, id, wg_extra w))
                        | None => None
                        end
            end in
  let psk := match p_psk p with
             | None => Some None
             | Some q => match load_b64 junk MAX_PSK_SIZE rand q f with Some k => Some (Some k) | None => None end
             end in
  match wg, psk, load SPK_LEN (p_public p) f, osk_ok p with
  | Some wg, Some psk, Some pk, true =>
      Some {| s_psk := psk; s_pk := pk; s_out := p_key_out p; s_wg := wg; s_endpoint := p_endpoint p; s_v03 := p_v03 p;
              s_domain := match p_org p, p_label p with Some o, Some l => Some (o, l) | _, _ => None end |}
  | _, _, _, _ => None
  end.
Fixpoint start_peers (rand : nat -> bytes) (f : fs) (i : nat) (l : list peer) : option (list srv_peer) :=
  match l with
  | [] => Some []
  | p :: l => match start_peer (rand i) f p with
              | Some s => match start_peers rand f (S i) l with Some r => Some (s :: r) | None => None end
              | None => None
              end
  end.
(** What [AppServer::new] and [add_peer] do with this is App.v's matter  rosenpass/src/cli.rs 435-504 [event_loop] *)
Definition start (rand : nat -> bytes) (f : fs) (c : config A) : option server :=
  let keys := match c_keypair c with
              | None => Some None
              | Some k => match load SSK_LEN (k_secret k) f, load SPK_LEN (k_public k) f with
                          | Some sk, Some pk => Some (Some (sk, pk))
                          | _, _ => None
                          end
              end in
  match keys, start_peers rand f 0 (c_peers c) with
  | Some keys, Some peers => Some {| s_keys := keys; s_listen := c_listen c; s_peers := peers |}
  | _, _ => None
  end.

(** * Commands, cli.rs 274-432 *)

(** How the files are written: for each the plan of the system  rosenpass/src/cli.rs 173-266 [CliCommand], as far as modelled *)
Inductive command :=
| GenConfig (file : path) (force : bool)
| Keygen (args : list string)
| GenKeys (file public secret : option path) (force : bool)
| ExchangeConfig (file : path)
| Exchange (args : list string) (file : option path)
| Validate (files : list path).
(** What a command ends with: [Ok], an error, a panic, or a running server  rosenpass/src/cli.rs 274-433 [run] *)
Inductive outcome := Done | Failed | Panicked | Running (s : server).

Variable toml : bytes -> option (config A).
Variable to_toml : config A -> bytes.
Variable example : bytes.
Variables home : path.
Variable umask : N.
(** Whether the API is compiled in, and the sources of API connections on the command line *)
Variable api : bool.
Variable api_args : nat.
(** The keypair that is generated: secret and public key *)
Variables gen_sk gen_pk : bytes.
Variable rand : nat -> bytes.

(** cli.rs 613-619 [generate_and_save_keypair] *)
Definition save_keypair (w1 w2 : wplan) (secret public : path) (f : fs) : fs * outcome :=
  let (f, ok) := store_secret umask w1 secret gen_sk f in
  if ok then let (f, ok) := store_public umask w2 public gen_pk f in (f, if ok then Done else Failed)
  else (f, Failed).
(** cli.rs 413-426: what [Validate] writes to standard error about each file: it cannot be read or parsed, it contains logical errors,
    it has passed all checks *)
Inductive verdict := Unreadable | Wrong | Passed.
Definition verdict_of (f : fs) (p : path) : verdict :=
  match load_config toml home p f with Some c => if validate f c then Passed else Wrong | None => Unreadable end.
(** cli.rs 302-315: the arguments of the deprecated command, two by two *)
Fixpoint keygen_args (args : list string) (sk pk : option path) : option (option path * option path) :=
  match args with
  | [] => Some (sk, pk)
  | k :: v :: args =>
      if String.eqb k "private-key" || String.eqb k "secret-key" then keygen_args args (Some v) pk
      else if String.eqb k "public-key" then keygen_args args sk (Some v)
      else None
  | _ => None
  end.
(** cli.rs 385-389, 406-410: [validate], 120-124 [apply_to_config], the check and the start *)
Definition serve (c : config A) (f : fs) : outcome :=
  if validate f c then
    let c := if api then with_api c (c_api c + api_args) else c in
    if useful api c then match start rand f c with Some s => Running s | None => Failed end else Failed
  else Failed.

(** cli.rs 281-431 *)
Definition run (w1 w2 : wplan) (cmd : command) (f : fs) : fs * outcome :=
  match cmd with
  | GenConfig file force =>
      if force || negb (exists_ f file)
      then let (f, ok) := write_file umask M_DEFAULT w1 file example f in (f, if ok then Done else Failed)
      else (f, Failed)
  | Keygen args =>
      match keygen_args args None None with
      | Some (Some sk, Some pk) => save_keypair w1 w2 sk pk f
      | _ => (f, Failed)
      end
  | GenKeys file public secret force =>
      let keys := match file, public, secret with
                  | Some c, _, _ => match load_config toml home c f with
                                    | Some c => match c_keypair c with Some k => Some (k_public k, k_secret k) | None => None end
                                    | None => None
                                    end
                  | None, Some pk, Some sk => Some (pk, sk)
                  | _, _, _ => None
                  end in
      match keys with
      | None => (f, Failed)
      | Some (pk, sk) =>
          if negb force && (is_file f pk || is_file f sk) then (f, Failed)
          else save_keypair w1 w2 sk pk f
      end
  | ExchangeConfig file =>
      match load_config toml home file f with Some c => (f, serve c f) | None => (f, Failed) end
  | Exchange args file =>
      match parse_args args with
      | Panic => (f, Panicked)
      | Err _ => (f, Failed)
      | Ok c =>
          match file with
          | None => (f, serve c f)
          | Some p => let (f, ok) := write_file umask M_DEFAULT w1 p (to_toml c) f in
                      if ok then (f, serve (with_path c p) f) else (f, Failed)
          end
      end
  | Validate _ => (f, Done)
  end.
End Config.
