(** The tool `rp`: its keys (rp/src/key.rs), its command line (rp/src/cli.rs), what `rp exchange` sets up (rp/src/exchange.rs,
    rp/src/main_supported_platforms.rs), and the broker that calls `wg` (wireguard-broker/src/brokers/native_unix.rs).

    The resolution of addresses, numbers and toml is outside the repository and any function here.  Asynchronous calls are made one
    after the other, as the code awaits each of them. *)
From Coq Require Import Strings.Ascii Strings.String.
From Verif Require Import Base Files Config.
Local Open Scope string_scope.
Local Open Scope list_scope.

(** * Directories *)

(** The directories that a path leads through, and itself  No code in /repo: the components std::fs walks through for rp/src/key.rs 46-49 and 92. *)
Fixpoint leads (done rest : string) : list path :=
  match rest with
  | EmptyString => [done]
  | String c r => if Ascii.eqb c "/" then done :: leads (done ++ "/")%string r else leads (done ++ String c "")%string r
  end.
(** No code in /repo: without the empty path. *)
Definition prefixes (p : path) : list path := filter (fun q => negb (String.eqb q "")) (leads "" p).
(** std [DirBuilder::create] with [recursive(true)], [create_dir_all]: [can] tells which directories can be created.
    A crash leaves what a failure at the same directory leaves.  Used at rp/src/key.rs 46-49 and 92. *)
Fixpoint mkdirs (can : path -> bool) (mode : N) (l : list path) (f : fs) : fs * bool :=
  match l with
  | [] => (f, true)
  | p :: l =>
      match f p with
      | Some (NDir _) => mkdirs can mode l f
      | Some _ => (f, false)
      | None => if can p then mkdirs can mode l (fset f p (NDir mode)) else (f, false)
      end
  end.
(** No code in /repo: the same with the umask. *)
Definition mkdir_all (can : path -> bool) (umask mode : N) (p : path) (f : fs) : fs * bool := mkdirs can (N.ldiff mode umask) (prefixes p) f.
(** std [fs::copy]: the new file gets the permissions of the old one  Used at rp/src/key.rs 112. *)
Definition copy_file (w : wplan) (from to : path) (f : fs) : fs * bool :=
  match f from with
  | Some (NFile m d) =>
      let d' := match w with WStops n => firstn n d | _ => d end in
      let ok := match w with WAll => true | _ => false end in
      match w, f to with
      | WNoOpen, _ | _, Some (NDir _) => (f, false)
      | _, Some (NOther _) => (f, ok)
      | _, _ => (fset f to (NFile m d'), ok)
      end
  | _ => (f, false)
  end.

(** * Keys: key.rs *)

(** key.rs 18 *)
Definition WG_B64_LEN : nat := 53.
Definition M_0700 : N := 448.
Definition M_0777 : N := 511.

(** key.rs 49-79: the keys that are missing are made *)
Definition make_keys (umask : N) (w1 w2 w3 : wplan) (wgsk pqsk pqpk : bytes) (d : path) (f : fs) : fs * bool :=
  let (f, ok) := if exists_ f (join d "wgsk") then (f, true) else store_b64 M_SECRET umask WG_B64_LEN w1 (join d "wgsk") wgsk f in
  if ok then
    if negb (exists_ f (join d "pqsk")) && negb (exists_ f (join d "pqpk")) then
      let (f, ok) := store_public umask w2 (join d "pqpk") pqpk f in
      if ok then store_secret umask w3 (join d "pqsk") pqsk f else (f, false)
    else (f, true)
  else (f, false).
(** key.rs 37-80 [genkey]: [wgsk] is the random WireGuard key, [pqsk] and [pqpk] the generated keypair.  Line 39 compares the whole mode word.
    The flag tells whether it returns [Ok]. *)
Definition genkey (umask : N) (can : path -> bool) (w1 w2 w3 : wplan) (wgsk pqsk pqpk : bytes) (d : path) (f : fs) : fs * bool :=
  match f d with
  | Some n => if N.eqb (st_mode n) M_0700 then make_keys umask w1 w2 w3 wgsk pqsk pqpk d f else (f, false)
  | None =>
      let (f, ok) := mkdir_all can umask M_0700 d f in
      if ok then make_keys umask w1 w2 w3 wgsk pqsk pqpk d f else (f, false)
  end.

(** key.rs 87-115 [pubkey]; [x25519]: the public key of a WireGuard key *)
Definition pubkey (x25519 : bytes -> bytes) (junk : bytes -> bytes -> option bytes) (rand : bytes) (umask : N) (can : path -> bool) (w1 w2 : wplan)
  (priv pub : path) (f : fs) : fs * bool :=
  if exists_ f pub then (f, false)
  else
    let (f, ok) := mkdir_all can umask M_0777 pub f in
    if ok then
      match load_b64 junk WG_B64_LEN rand (join priv "wgsk") f with
      | Some wgsk =>
          let (f, ok) := store_b64 M_PUBLIC umask WG_B64_LEN w1 (join pub "wgpk") (x25519 wgsk) f in
          if ok then copy_file w2 (join priv "pqpk") (join pub "pqpk") f else (f, false)
      | None => (f, false)
      end
    else (f, false).

(** * The command line: cli.rs *)

(** [SocketAddr]; [a_scope]: the scope and the flow of an IPv6 address *)
Record addr := { a_ip : string; a_port : N; a_scope : N }.
(** exchange.rs 67-79 [ExchangePeer], 84-99 [ExchangeOptions] *)
Record xpeer := { x_dir : path; x_endpoint : option addr; x_keepalive : option N; x_ips : option string; x_v03 : bool }.
Record xopts := { o_verbose : bool; o_dir : path; o_dev : option string; o_ip : option string; o_listen : option addr; o_peers : list xpeer }.
Definition xpeer0 (d : path) : xpeer := {| x_dir := d; x_endpoint := None; x_keepalive := None; x_ips := None; x_v03 := false |}.
Definition xopts0 (d : path) : xopts := {| o_verbose := false; o_dir := d; o_dev := None; o_ip := None; o_listen := None; o_peers := [] |}.

(** cli.rs 11-24 [Command], 40-45 [Cli] *)
Inductive rp_command := RGenKey (d : path) | RPubKey (priv pub : path) | RExchange (o : xopts) | RExchangeConfig (file : path) | RHelp.
Record cli := { cl_verbose : bool; cl_command : option rp_command }.

Section Rp.
(** [str::parse] to a [SocketAddr] and to a [u32], and [to_string] of both *)
Variable sockaddr : string -> option addr.
Variable u32 : string -> option N.
Variable show_addr : addr -> string.
Variable show_n : N -> string.

(** cli.rs 94-160: the options of a peer, up to the next one; with what is left *)
Fixpoint peer_opts (p : xpeer) (args : list string) : res unit (xpeer * list string) :=
  match args with
  | [] => Ok (p, [])
  | x :: rest =>
      if String.eqb x "peer" then Ok (p, args)
      else if String.eqb x "endpoint" then
        match rest with
        | v :: rest =>
            match sockaddr v with
            | Some a => peer_opts {| x_dir := x_dir p; x_endpoint := Some a; x_keepalive := x_keepalive p; x_ips := x_ips p; x_v03 := x_v03 p |} rest
            | None => Err tt
            end
        | [] => Err tt
        end
      else if String.eqb x "persistent-keepalive" then
        match rest with
        | v :: rest =>
            match u32 v with
            | Some n => peer_opts {| x_dir := x_dir p; x_endpoint := x_endpoint p; x_keepalive := Some n; x_ips := x_ips p; x_v03 := x_v03 p |} rest
            | None => Err tt
            end
        | [] => Err tt
        end
      else if String.eqb x "allowed-ips" then
        match rest with
        | v :: rest => peer_opts {| x_dir := x_dir p; x_endpoint := x_endpoint p; x_keepalive := x_keepalive p; x_ips := Some v; x_v03 := x_v03 p |} rest
        | [] => Err tt
        end
      else Err tt
  end.
(** cli.rs 82-160 [ExchangePeer::parse] *)
Definition peer_parse (args : list string) : res unit (xpeer * list string) :=
  match args with [] => Err tt | d :: args => peer_opts (xpeer0 d) args end.

(** rp/src/cli.rs 167-231: assignments to single fields of [ExchangeOptions] *)
Definition o_with (o : xopts) dev ip listen peers : xopts :=
  {| o_verbose := o_verbose o; o_dir := o_dir o; o_dev := dev; o_ip := ip; o_listen := listen; o_peers := peers |}.
(** cli.rs 179-227; [fuel] is more than the number of arguments ([opts_parse]), and running out of it is told apart as a panic *)
Fixpoint opts_loop (fuel : nat) (o : xopts) (args : list string) : res unit xopts :=
  match fuel with
  | O => Panic
  | S fuel =>
      match args with
      | [] => Ok o
      | x :: rest =>
          if String.eqb x "dev" then
            match rest with v :: rest => opts_loop fuel (o_with o (Some v) (o_ip o) (o_listen o) (o_peers o)) rest | [] => Err tt end
          else if String.eqb x "ip" then
            match rest with v :: rest => opts_loop fuel (o_with o (o_dev o) (Some v) (o_listen o) (o_peers o)) rest | [] => Err tt end
          else if String.eqb x "listen" then
            match rest with
            | v :: rest => match sockaddr v with Some a => opts_loop fuel (o_with o (o_dev o) (o_ip o) (Some a) (o_peers o)) rest | None => Err tt end
            | [] => Err tt
            end
          else if String.eqb x "peer" then
            match peer_parse rest with
            | Ok (p, rest) => opts_loop fuel (o_with o (o_dev o) (o_ip o) (o_listen o) (o_peers o ++ [p])) rest
            | Err e => Err e
            | Panic => Panic
            end
          else Err tt
      end
  end.
(** cli.rs 167-228 [ExchangeOptions::parse]; nothing is left behind it *)
Definition opts_parse (args : list string) : res unit xopts :=
  match args with [] => Err tt | d :: args => opts_loop (S (List.length args)) (xopts0 d) args end.

(** rp/src/cli.rs 235-322: assignment to [command] *)
Definition with_command (c : cli) (x : rp_command) : cli := {| cl_verbose := cl_verbose c; cl_command := Some x |}.
(** rp/src/cli.rs 235-322: [command.is_some] *)
Definition has_command (c : cli) : bool := match cl_command c with Some _ => true | None => false end.
(** cli.rs 240-322 *)
Fixpoint cli_loop (c : cli) (args : list string) : res unit cli :=
  match args with
  | [] => Ok c
  | x :: rest =>
      if String.eqb x "verbose" then cli_loop {| cl_verbose := true; cl_command := cl_command c |} rest
      else if String.eqb x "explain" then cli_loop c rest
      else if String.eqb x "genkey" then
        if has_command c then Err tt else
        match rest with d :: rest => cli_loop (with_command c (RGenKey d)) rest | [] => Err tt end
      else if String.eqb x "pubkey" then
        if has_command c then Err tt else
        match rest with d :: p :: rest => cli_loop (with_command c (RPubKey d p)) rest | _ => Err tt end
      else if String.eqb x "exchange" then
        if has_command c then Err tt else
        match opts_parse rest with Ok o => Ok (with_command c (RExchange o)) | Err e => Err e | Panic => Panic end
      else if String.eqb x "exchange-config" then
        if has_command c then Err tt else
        match rest with f :: rest => cli_loop (with_command c (RExchangeConfig f)) rest | [] => Err tt end
      else if String.eqb x "help" then cli_loop (with_command c RHelp) rest
      else Err tt
  end.
(** cli.rs 235-329 [Cli::parse] *)
Definition cli_parse (args : list string) : res unit cli :=
  match cli_loop {| cl_verbose := false; cl_command := None |} (tl args) with
  | Ok c => if has_command c then Ok c else Err tt
  | Err e => Err e
  | Panic => Panic
  end.

(** * rp exchange: exchange.rs *)

(** What is done to the system.  [EExec]: a program is run; its exit status is not looked at.  rp/src/exchange.rs 103-544 *)
Inductive effect :=
| EAdd (dev : string) | EHandle (dev : string) | EUp (dev : string) | EDel (dev : string)
| ESet (dev : string) (key : bytes) (port : option N)
| EExec (argv : list string).
(** What [exchange] comes to: an error, a panic, or the server running its event loop  rp/src/exchange.rs 432-544 *)
Record xserver := { xs_keys : bytes * bytes; xs_listen : list addr; xs_verbose : bool; xs_peers : list srv_peer }.
(** rp/src/exchange.rs 432-544 [exchange] *)
Inductive xoutcome := XFailed | XPanicked | XRunning (s : xserver).

(** Which operations succeed, and which network devices exist *)
Variable works : effect -> bool.
Variable devs : string -> bool.
Variable checks : bool.
Variable junk : bytes -> bytes -> option bytes.
Variables rand_sk : bytes.
(** 460-470: the server can be made, that is, the sockets can be bound *)
Variable binds : bool.
Variable rand_psk : nat -> bytes.

(** exchange.rs 451, 497: [port + 1] on [u16], with overflow checks or without *)
Definition next_port (p : N) : res unit N := if N.eqb p 65535 then (if checks then Panic else Ok 0%N) else Ok (p + 1)%N.

(** exchange.rs 116-194 [open]: the effects, and whether it succeeds *)
Definition open_device (d : string) : list effect * bool :=
  if devs d then ([], false)
  else if works (EAdd d) then
    if works (EHandle d) then if works (EUp d) then ([EAdd d; EUp d], true) else ([EAdd d], false)
    else ([EAdd d], false)
  else ([], false).

(** exchange.rs 492-507 *)
Definition extra_params (p : xpeer) : res unit (list string) :=
  match match x_endpoint p with
        | Some a => match next_port (a_port a) with
                    | Ok n => Ok ["endpoint"; show_addr {| a_ip := a_ip a; a_port := n; a_scope := 0 |}]
                    | Err e => Err e
                    | Panic => Panic
                    end
        | None => Ok []
        end with
  | Ok l => Ok (l ++ match x_keepalive p with Some n => ["persistent-keepalive"; show_n n] | None => [] end
                  ++ match x_ips p with Some s => ["allowed-ips"; s] | None => [] end)
  | Err e => Err e
  | Panic => Panic
  end.
(** exchange.rs 475-490, 509-529: a peer, up to [add_peer]; [dev]: the name of the device *)
Definition setup_peer (f : fs) (dev : string) (rand : bytes) (p : xpeer) : res unit srv_peer :=
  match contents f (join (x_dir p) "wgpk") with
  | None => Err tt
  | Some wgpk =>
      match load SPK_LEN (join (x_dir p) "pqpk") f,
            (if exists_ f (join (x_dir p) "psk")
             then match load_b64 junk WG_B64_LEN rand (join (x_dir p) "psk") f with Some k => Some (Some k) | None => None end
             else Some None) with
      | Some pqpk, Some psk =>
          match extra_params p with
          | Ok extra =>
              match b64_decode junk wgpk (zeros 32) with
              | Some id => Ok {| s_psk := psk; s_pk := pqpk; s_out := None; s_wg := Some (dev, id, extra);
                                 s_endpoint := option_map show_addr (x_endpoint p); s_v03 := x_v03 p; s_domain := None |}
              | None => Err tt
              end
          | Err e => Err e
          | Panic => Panic
          end
      | _, _ => Err tt
      end
  end.
(** 473-540; 533-539: the route *)
(** [seen]: the public keys of the peers there are; a second peer with the same key is refused (protocol.rs 1278-1286, which compares
    hashes of the keys) *)
Fixpoint setup_peers (f : fs) (dev : string) (seen : list bytes) (i : nat) (l : list xpeer) : list effect * res unit (list srv_peer) :=
  match l with
  | [] => ([], Ok [])
  | p :: l =>
      match setup_peer f dev (rand_psk i) p with
      | Ok s =>
          if existsb (bytes_eqb (s_pk s)) seen then ([], Err tt) else
          let route := match x_ips p with Some s => Some (EExec ["ip"; "route"; "replace"; s; "dev"; dev]) | None => None end in
          if match route with Some e => works e | None => true end then
            let (es, r) := setup_peers f dev (s_pk s :: seen) (S i) l in
            (match route with Some e => e :: es | None => es end, match r with Ok r => Ok (s :: r) | Err e => Err e | Panic => Panic end)
          else ([], Err tt)
      | Err e => ([], Err e)
      | Panic => ([], Panic)
      end
  end.

(** exchange.rs 449-540: what is done once the device is there *)
Definition setup (f : fs) (o : xopts) (dev : string) (wgsk sk pk : bytes) : list effect * xoutcome :=
  match match o_listen o with Some a => match next_port (a_port a) with Ok n => Ok (Some n) | Err e => Err e | Panic => Panic end | None => Ok None end with
  | Err _ => ([], XFailed)
  | Panic => ([], XPanicked)
  | Ok port =>
      if works (ESet dev wgsk port) then
        let ip := match o_ip o with Some a => [EExec ["ip"; "address"; "add"; a; "dev"; dev]] | None => [] end in
        if forallb works ip then
          if binds then
          let (es, r) := setup_peers f dev [] 0 (o_peers o) in
          (ESet dev wgsk port :: ip ++ es,
           match r with
           | Ok peers => XRunning {| xs_keys := (sk, pk); xs_listen := match o_listen o with Some a => [a] | None => [] end;
                                     xs_verbose := o_verbose o; xs_peers := peers |}
           | Err _ => XFailed
           | Panic => XPanicked
           end)
          else (ESet dev wgsk port :: ip, XFailed)
        else ([ESet dev wgsk port], XFailed)
      else ([], XFailed)
  end.
(** exchange.rs 432-544 [exchange], and 420-428: a device that was opened is removed when the function ends with an error, or when the event loop has
    ended (the last component: what is done then).  Whether it is removed after a panic is not modelled. *)
Definition exchange (f : fs) (o : xopts) : list effect * xoutcome * list effect :=
  match load_b64 junk WG_B64_LEN rand_sk (join (o_dir o) "wgsk") f, load SSK_LEN (join (o_dir o) "pqsk") f, load SPK_LEN (join (o_dir o) "pqpk") f with
  | Some wgsk, Some sk, Some pk =>
      let dev := match o_dev o with Some d => d | None => "rosenpass0" end in
      let (es, ok) := open_device dev in
      if ok then let (es', r) := setup f o dev wgsk sk pk in (es ++ es', r, match r with XPanicked => [] | _ => [EDel dev] end)
      else (es, XFailed, [])
  | _, _, _ => ([], XFailed, [])
  end.

(** main_supported_platforms.rs 36-57: the two commands that exchange keys; [toml]: the options in a configuration file *)
Variable toml : bytes -> option xopts.
Definition verbosely (v : bool) (o : xopts) : xopts :=
  {| o_verbose := v; o_dir := o_dir o; o_dev := o_dev o; o_ip := o_ip o; o_listen := o_listen o; o_peers := o_peers o |}.
Definition rp_exchange (f : fs) (verbose : bool) (o : xopts) : list effect * xoutcome * list effect := exchange f (verbosely verbose o).
Definition rp_exchange_config (f : fs) (verbose : bool) (file : path) : list effect * xoutcome * list effect :=
  match contents f file with
  | None => ([], XPanicked, [])
  | Some d => match toml d with None => ([], XPanicked, []) | Some o => exchange f (verbosely (o_verbose o || verbose) o) end
  end.
End Rp.

(** * The broker that calls `wg`: native_unix.rs *)

(** native_unix.rs 82-128 [set_psk], 288-304: a program with its arguments and what it reads from standard input.  The further parameters have been
    encoded and decoded by postcard, which is outside the repository.  [None]: an error.  When `wg` has been started the result is [Ok],
    whatever becomes of it. *)
Record wg_call := { wc_argv : list string; wc_stdin : bytes }.
Definition MAX_B64_KEY_SIZE : nat := 53.
Definition wg_set (dev : string) (id psk : bytes) (extra : list string) : option wg_call :=
  match b64_encode MAX_B64_KEY_SIZE id with
  | None => None
  | Some t =>
      Some {| wc_argv := ["wg"; "set"; dev; "peer"; string_of_list_byte t; "preshared-key"; "/dev/stdin"] ++ extra;
              wc_stdin := match b64_encode MAX_B64_KEY_SIZE psk with Some t => t | None => [] end |}
  end.
(** The result for the caller.  [started]: `wg` can be started; [reads], [status]: it takes the key, and its exit status (native_unix.rs 107-126),
    which are logged only *)
Definition set_psk_native (started reads status : bool) (dev : string) (id psk : bytes) (extra : list string) : res unit (option wg_call) :=
  match wg_set dev id psk extra with
  | None => Panic
  | Some c => if started then Ok (Some c) else Err tt
  end.
