(** The programs as a whole: rosenpass/src/main.rs with rosenpass/src/cli.rs 57-143, and rp/src/main.rs with
    rp/src/main_supported_platforms.rs.  How they end, and what they log. *)
From Coq Require Import Strings.Ascii Strings.String.
From Verif Require Import Base Files Config Rp.
Local Open Scope string_scope.
Local Open Scope list_scope.

(** * Logging *)

(** [log::LevelFilter], from nothing to everything.  No code in /repo: the library log, as used at cli.rs 61-62. *)
Inductive level := LOff | LError | LWarn | LInfo | LDebug | LTrace.
(** No code in /repo: the order of the library log. *)
Definition rank (l : level) : nat :=
  match l with LOff => 0 | LError => 1 | LWarn => 2 | LInfo => 3 | LDebug => 4 | LTrace => 5 end.
(** cli.rs 60-70: the options about logging *)
Record log_args := { la_level : option level; la_verbose : bool; la_quiet : bool }.
(** cli.rs 132-143 [get_log_level] *)
Definition get_log_level (a : log_args) : option level :=
  if la_verbose a then Some LInfo
  else if la_quiet a then Some LWarn
  else match la_level a with Some l => Some l | None => None end.

(** The environment variable RUST_LOG as env_logger understands it: the level for all modules, if it has one, and for the modules that it
    names or whose names begin with one of those.  No code in /repo: the library env_logger, as used at main.rs 64 and
    main_supported_platforms.rs 32. *)
Record rust_log := { rl_all : option level; rl_named : string -> option level; rl_empty : bool }.
(** main.rs 63-70: the level for a module.  [filter_level] takes the place of the level for all modules; a variable without any directive
    stands for "error". *)
Definition effective (e : rust_log) (cli : option level) (module : string) : level :=
  match rl_named e module with
  | Some l => l
  | None =>
      match cli with
      | Some l => l
      | None => match rl_all e with Some l => l | None => if rl_empty e then LError else LOff end
      end
  end.
(** No code in /repo: which messages are written.  The library env_logger. *)
Definition shown (e : rust_log) (cli : option level) (module : string) (l : level) : bool :=
  Nat.leb 1 (rank l) && Nat.leb (rank l) (rank (effective e cli module)).

(** * How a process ends *)

(** The exit status of a process, or that it serves for the time being.  No code in /repo: std::process; a panic of the first thread ends the
    process with 101, [main] returning an error with 1. *)
Inductive ending (S : Type) := Exit (status : N) | Serves (s : S).
Arguments Exit {S}. Arguments Serves {S}.

(** * rosenpass *)

(** cli.rs 57-113 [CliArgs] without the options of the API and the broker, which have their own models (Config.v, Spawn.v);
    [ar_clash]: two options of one group of those.  [ar_any]: there is any argument. *)
Record args := { ar_log : log_args; ar_shell : bool; ar_man : option path; ar_command : option command; ar_clash : bool; ar_any : bool }.
(** cli.rs 61, 65, 69: the options of a group exclude each other *)
Definition log_options (a : log_args) : nat :=
  (if la_level a then 1 else 0) + (if la_verbose a then 1 else 0) + (if la_quiet a then 1 else 0).

(** How writing the manual goes: the directories that can be made, the pages that the library writes first, one after the other until one
    fails, and the page that is written at the end.  No code in /repo: the system behind main.rs 31-52. *)
Record man_plan := { mp_can : path -> bool; mp_pages : list (string * bytes * wplan); mp_page : bytes; mp_last : wplan }.
(** main.rs 36: [clap_mangen::generate_to], whose result is thrown away *)
Fixpoint man_pages (umask : N) (d : path) (l : list (string * bytes * wplan)) (f : fs) : fs :=
  match l with
  | [] => f
  | (n, b, w) :: l => let (f, ok) := write_file umask M_DEFAULT w (join d n) b f in if ok then man_pages umask d l f else f
  end.
(** main.rs 38-50: [File::create] panics; the results of writing are thrown away *)
Definition last_page (umask : N) (d : path) (b : bytes) (w : wplan) (f : fs) : fs * N :=
  let p := join d "rosenpass.1" in
  match w, f p with
  | WNoOpen, _ | _, Some (NDir _) => (f, 101%N)
  | _, _ => (fst (write_file umask M_DEFAULT w p b f), 0%N)
  end.
(** main.rs 31-52 *)
Definition manual (umask : N) (m : man_plan) (d : path) (f : fs) : fs * N :=
  let (f, ok) := mkdir_all (mp_can m) umask M_0777 d f in
  if ok then last_page umask d (mp_page m) (mp_last m) (man_pages umask d (mp_pages m) f) else (f, 101%N).

(** main.rs 81-87 and the meaning of a panic: the status for what a command comes to *)
Definition status_of {A} (o : @outcome A) : ending (@server A) :=
  match o with Done => Exit 0 | Failed => Exit 1 | Panicked => Exit 101 | Running s => Serves s end.
(** main.rs 21-88 [main], cli.rs 274-281 and 428 (no command).  Clap ends the program with 2 if the arguments are wrong or if there are none.
    The choice of the memory for secrets (main.rs 54-60) is Alloc.v's matter; completions go to standard output. *)
Definition rosenpass {A} (umask : N) (run : command -> fs -> fs * @outcome A) (m : man_plan) (a : args) (f : fs) : fs * ending (@server A) :=
  if negb (ar_any a) || Nat.ltb 1 (log_options (ar_log a)) || ar_clash a then (f, Exit 2)
  else if ar_shell a then (f, Exit 0)
  else match ar_man a with
       | Some d => let (f, n) := manual umask m d f in (f, Exit n)
       | None => match ar_command a with
                 | None => (f, Exit 0)
                 | Some c => let (f, o) := run c f in (f, status_of o)
                 end
       end.

(** * rp *)

(** What a command of rp comes to: an error, the end of its work, a panic, a server.  main_supported_platforms.rs 36-57, with what was done to the
    system. *)
Record rp_result := { rr_fs : fs; rr_effects : list effect; rr_end : ending xserver }.
(** main_supported_platforms.rs 11-58 [main], main.rs 11-14.  [gen], [pub], [exch], [conf]: the four commands (Rp.v).  [Cli::parse] only gives a
    result with a command, so that [unwrap] in line 34 does not panic.  That a server comes to an end is not modelled. *)
Definition rp_main (parse : list string -> res unit cli)
  (gen : path -> fs -> fs * bool) (pub : path -> path -> fs -> fs * bool)
  (exch : fs -> bool -> xopts -> list effect * xoutcome * list effect)
  (conf : fs -> bool -> path -> list effect * xoutcome * list effect)
  (argv : list string) (f : fs) : rp_result :=
  let ends (r : fs * bool) := {| rr_fs := fst r; rr_effects := []; rr_end := Exit (if snd r then 0 else 1)%N |} in
  let serves (r : list effect * xoutcome * list effect) :=
    let '(es, o, fin) := r in
    match o with
    | XFailed => {| rr_fs := f; rr_effects := es ++ fin; rr_end := Exit 1%N |}
    | XPanicked => {| rr_fs := f; rr_effects := es; rr_end := Exit 101%N |}
    | XRunning s => {| rr_fs := f; rr_effects := es; rr_end := Serves s |}
    end in
  match parse argv with
  | Panic => {| rr_fs := f; rr_effects := []; rr_end := Exit 101%N |}
  | Err _ => {| rr_fs := f; rr_effects := []; rr_end := Exit 1%N |}
  | Ok c =>
      match cl_command c with
      | None => {| rr_fs := f; rr_effects := []; rr_end := Exit 101%N |}
      | Some (RGenKey d) => ends (gen d f)
      | Some (RPubKey d p) => ends (pub d p f)
      | Some (RExchange o) => serves (exch f (cl_verbose c) o)
      | Some (RExchangeConfig p) => serves (conf f (cl_verbose c) p)
      | Some RHelp => {| rr_fs := f; rr_effects := []; rr_end := Exit 0%N |}
      end
  end.
