(** C107 and C108: what the programs log, and how they end. *)
From Coq Require Import Strings.Ascii Strings.String.
From Verif Require Import Base Files PFiles Config PConfig Rp PRp Main.
Local Open Scope string_scope.
Local Open Scope list_scope.

(** * C107: the options about logging *)

(** What the manual says about them (cli.rs 60-70): "lowest log level to show", "sets log level to debug", "sets log level to error" *)
Inductive documented : log_args -> level -> Prop :=
| doc_level l : documented {| la_level := Some l; la_verbose := false; la_quiet := false |} l
| doc_verbose : documented {| la_level := None; la_verbose := true; la_quiet := false |} LDebug
| doc_quiet : documented {| la_level := None; la_verbose := false; la_quiet := true |} LError.
(** Severity, as the library documents it: errors are the most severe messages, then warnings, then information, then what helps debugging *)
Inductive less_severe : level -> level -> Prop :=
| than_error : less_severe LWarn LError
| than_warn : less_severe LInfo LWarn
| than_info : less_severe LDebug LInfo
| than_debug : less_severe LTrace LDebug.
(** The messages of the level [l] are written if the level is set to [m]: none are written if it is set to off *)
Inductive as_severe : level -> level -> Prop :=
| same m : m <> LOff -> as_severe m m
| down l m m' : as_severe l m -> less_severe m' m -> as_severe l m'.
(** A message of the level [l], which is one that messages can have, is written exactly if it is as severe as [m] *)
Definition shows_down_to (e : rust_log) (a : log_args) (module : string) (m : level) : Prop :=
  forall l, l <> LOff -> shown e (get_log_level a) module l = true <-> as_severe l m.

Lemma shown_iff e cli module l : l <> LOff -> shown e cli module l = true <-> as_severe l (effective e cli module).
Proof.
  intros N. unfold shown. generalize (effective e cli module). intros m. assert (1 <= rank l) as R by (destruct l; cbn; try lia; congruence).
  rewrite (proj2 (Nat.leb_le _ _) R). cbn [andb]. rewrite Nat.leb_le. split.
  - intros L. destruct m, l; try (cbn in L; lia); try congruence;
      repeat first [now (apply same; discriminate) | eapply down; [|constructor]].
  - intros S. induction S as [m _|l m m' S IH Ls]; [lia|]. specialize (IH N R). destruct Ls; cbn in *; lia.
Qed.
Lemma severe_rank l m : as_severe l m -> rank l <= rank m.
Proof. intros S. induction S as [m _|l m m' S IH Ls]; [lia|]. destruct Ls; cbn in *; lia. Qed.

(** C107: with --log-level, a module that RUST_LOG does not name logs exactly the messages of that level and more severe ones, whatever else
    RUST_LOG says.  Partial: --verbose and --quiet set other levels than documented, and a module that RUST_LOG names keeps its level, see the
    refutations. *)
Theorem C107_level_partial e l module : rl_named e module = None ->
  shows_down_to e {| la_level := Some l; la_verbose := false; la_quiet := false |} module l.
Proof. intros E m N. rewrite shown_iff by exact N. unfold effective, get_log_level. cbn. now rewrite E. Qed.
Print Assumptions C107_level_partial.

(** C107: without any of the options, RUST_LOG decides alone, and without that variable only errors are logged *)
Theorem C107_default e module :
  shows_down_to e {| la_level := None; la_verbose := false; la_quiet := false |} module
    (match rl_named e module, rl_all e with Some l, _ | None, Some l => l | None, None => if rl_empty e then LError else LOff end).
Proof. intros l N. rewrite shown_iff by exact N. unfold effective, get_log_level. cbn. destruct (rl_named e module), (rl_all e); reflexivity. Qed.
Print Assumptions C107_default.

(** C107 fails: --verbose is documented to show debug messages, and shows none, whatever RUST_LOG says about all modules *)
Theorem C107_verbose_refuted e module : rl_named e module = None ->
  documented {| la_level := None; la_verbose := true; la_quiet := false |} LDebug /\
  shows_down_to e {| la_level := None; la_verbose := true; la_quiet := false |} module LInfo /\
  ~ shows_down_to e {| la_level := None; la_verbose := true; la_quiet := false |} module LDebug.
Proof.
  intros E. split; [constructor|].
  assert (K : shows_down_to e {| la_level := None; la_verbose := true; la_quiet := false |} module LInfo).
  { intros m N. rewrite shown_iff by exact N. unfold effective, get_log_level. cbn. now rewrite E. }
  split; [exact K|]. intros H. assert (N : LDebug <> LOff) by discriminate.
  pose proof (proj1 (K _ N) (proj2 (H _ N) (same _ N))) as X. apply severe_rank in X. cbn in X. lia.
Qed.
Print Assumptions C107_verbose_refuted.

(** C107 fails: --quiet is documented to show errors only, and shows warnings too *)
Theorem C107_quiet_refuted e module : rl_named e module = None ->
  documented {| la_level := None; la_verbose := false; la_quiet := true |} LError /\
  shows_down_to e {| la_level := None; la_verbose := false; la_quiet := true |} module LWarn /\
  ~ shows_down_to e {| la_level := None; la_verbose := false; la_quiet := true |} module LError.
Proof.
  intros E. split; [constructor|].
  assert (K : shows_down_to e {| la_level := None; la_verbose := false; la_quiet := true |} module LWarn).
  { intros m N. rewrite shown_iff by exact N. unfold effective, get_log_level. cbn. now rewrite E. }
  split; [exact K|]. intros H. assert (N : LWarn <> LOff) by discriminate.
  pose proof (proj1 (H _ N) (proj2 (K _ N) (same _ N))) as X. apply severe_rank in X. cbn in X. lia.
Qed.
Print Assumptions C107_quiet_refuted.

(** C107 fails: a module that RUST_LOG names logs at the level given there, whatever the options say *)
Theorem C107_named_refuted e a module l : rl_named e module = Some l -> shows_down_to e a module l.
Proof. intros E m N. rewrite shown_iff by exact N. unfold effective. now rewrite E. Qed.
Print Assumptions C107_named_refuted.

(** * C108: the exit status *)

Section Rosenpass.
Context {A : Type} (umask : N) (run_command : command -> fs -> fs * @outcome A) (m : man_plan).
Notation rosenpass := (rosenpass umask run_command m).

(** Arguments that make sense to the parser: there are some, and no two of a group *)
Definition accepted (a : args) : Prop := ar_any a = true /\ ar_clash a = false /\
  ~ (la_level (ar_log a) <> None /\ la_verbose (ar_log a) = true) /\ ~ (la_level (ar_log a) <> None /\ la_quiet (ar_log a) = true) /\
  ~ (la_verbose (ar_log a) = true /\ la_quiet (ar_log a) = true).
(** Nothing else is asked for but a command *)
Definition only (c : command) (a : args) : Prop := accepted a /\ ar_shell a = false /\ ar_man a = None /\ ar_command a = Some c.

Lemma accepted_eq a : negb (ar_any a) || Nat.ltb 1 (log_options (ar_log a)) || ar_clash a = false <-> accepted a.
Proof.
  unfold accepted, log_options. rewrite !orb_false_iff, negb_false_iff, Nat.ltb_ge.
  destruct (ar_log a) as [[l|] [|] [|]]; cbn; split; intros H; repeat split; try tauto; try lia; try (intros [? ?]; congruence);
    exfalso; destruct H as (_ & _ & H1 & H2 & H3);
    solve [now apply H3|apply H1; split; [discriminate|reflexivity]|apply H2; split; [discriminate|reflexivity]].
Qed.

(** C108: wrong arguments, or none: status 2, and no file has been touched *)
Theorem C108_usage a f : ~ accepted a -> rosenpass a f = (f, Exit 2%N).
Proof.
  intros N. unfold Main.rosenpass. destruct (_ || _ || _) eqn:E; [reflexivity|]. apply accepted_eq in E. contradiction.
Qed.

(** C108: a command ends the program with 0 exactly if it succeeded, with 1 exactly if it failed with an error and with 101 exactly if it
    panicked; with a server to run the program goes on.  The files are those of the command.  Partial: see [C108_manual_refuted],
    [C108_no_command_refuted] and [C108_validate_refuted]. *)
Theorem C108_status_partial c a f f' o : only c a -> run_command c f = (f', o) ->
  exists e, rosenpass a f = (f', e) /\
  (e = Exit 0%N <-> o = Done) /\ (e = Exit 1%N <-> o = Failed) /\ (e = Exit 101%N <-> o = Panicked) /\
  (forall s, e = Serves s <-> o = Running s) /\
  (forall n, e = Exit n -> n = 0%N \/ n = 1%N \/ n = 101%N).
Proof.
  intros (Ac & Sh & Mn & Cm) R. unfold Main.rosenpass. rewrite (proj2 (accepted_eq a) Ac), Sh, Mn, Cm, R.
  exists (status_of o). split; [reflexivity|].
  destruct o; cbn [status_of]; repeat split; intros; try discriminate; try congruence; auto.
  - assert (n = 0%N) by congruence. auto.
  - assert (n = 1%N) by congruence. auto.
  - assert (n = 101%N) by congruence. auto.
Qed.

(** C108: completions are printed and nothing else happens, whatever else is asked for *)
Theorem C108_completions a f : accepted a -> ar_shell a = true -> rosenpass a f = (f, Exit 0%N).
Proof. intros Ac Sh. unfold Main.rosenpass. now rewrite (proj2 (accepted_eq a) Ac), Sh. Qed.

(** C108 fails: options without a command are taken and the program ends with success, having done nothing *)
Theorem C108_no_command_refuted a f : accepted a -> ar_shell a = false -> ar_man a = None -> ar_command a = None ->
  rosenpass a f = (f, Exit 0%N).
Proof. intros Ac Sh Mn Cm. unfold Main.rosenpass. now rewrite (proj2 (accepted_eq a) Ac), Sh, Mn, Cm. Qed.

Lemma man_pages_other d l f q : (forall n b w, In (n, b, w) l -> q <> join d n) -> man_pages umask d l f q = f q.
Proof.
  revert f. induction l as [|[[n b] w] l IH]; intros f H; cbn [man_pages]; [reflexivity|].
  pose proof (write_other umask M_DEFAULT w (join d n) b f q (H n b w (or_introl eq_refl))) as O.
  destruct (write_file umask M_DEFAULT w (join d n) b f) as [f1 ok]. cbn [fst] in O.
  destruct ok; [|exact O]. rewrite IH; [exact O|]. intros n' b' w' I'. apply (H n' b' w'). now right.
Qed.

(** C108 fails: the manual is asked for, the page cannot be written, and the program ends with success: the page is there and cut off at any
    point *)
Theorem C108_manual_refuted a f d n mode : accepted a -> ar_shell a = false -> ar_man a = Some d -> d <> "" ->
  f d = Some (NDir mode) -> (forall p, In p (prefixes d) -> exists k, f p = Some (NDir k)) ->
  (forall q b w, In (q, b, w) (mp_pages m) -> q <> "rosenpass.1") -> f (join d "rosenpass.1") = None -> mp_last m = WStops n ->
  exists f', rosenpass a f = (f', Exit 0%N) /\ contents f' (join d "rosenpass.1") = Some (firstn n (mp_page m)).
Proof.
  intros Ac Sh Mn Nd Fd Pr Np Nf La. unfold Main.rosenpass. rewrite (proj2 (accepted_eq a) Ac), Sh, Mn. unfold manual.
  assert (mkdir_all (mp_can m) umask M_0777 d f = (f, true)) as ->.
  { unfold mkdir_all. revert Pr. induction (prefixes d) as [|p l IH]; intros Pr; [reflexivity|]. cbn [mkdirs].
    destruct (Pr p (or_introl eq_refl)) as [k ->]. apply IH. intros q Iq. apply Pr. now right. }
  unfold last_page. rewrite La.
  rewrite man_pages_other. 2:{ intros q b w I E. apply join_inj in E. exact (Np q b w I (eq_sym E)). }
  rewrite Nf. eexists. split; [reflexivity|]. unfold write_file, contents.
  rewrite man_pages_other. 2:{ intros q b w I E. apply join_inj in E. exact (Np q b w I (eq_sym E)). }
  rewrite Nf. cbn [fst]. now rewrite fset_same.
Qed.
End Rosenpass.
Print Assumptions C108_usage.
Print Assumptions C108_status_partial.
Print Assumptions C108_completions.
Print Assumptions C108_no_command_refuted.
Print Assumptions C108_manual_refuted.

(** With the commands of Config.v *)
Section Commands.
Context {A : Type}.
Variable resolve : string -> option (list A).
Variables (junk : bytes -> bytes -> option bytes) (toml : bytes -> option (config A)) (to_toml : config A -> bytes) (example : bytes) (home : path)
  (umask : N) (api : bool) (api_args : nat) (gen_sk gen_pk : bytes) (rand : nat -> bytes) (w1 w2 : wplan) (m : man_plan).
Notation run := (run resolve junk toml to_toml example home umask api api_args gen_sk gen_pk rand w1 w2).
Notation rosenpass := (rosenpass umask run m).

(** C108: after `rosenpass gen-keys` with status 0 both files hold the keys of one pair; with any other status it is 1 *)
Theorem C108_gen_keys a file public secret force f f' e pk sk :
  only (GenKeys file public secret force) a -> rosenpass a f = (f', e) ->
  asked toml home file public secret f pk sk -> pk <> sk -> (is_file f sk = true \/ f sk = None) -> (is_file f pk = true \/ f pk = None) ->
  (e = Exit 0%N /\ contents f' sk = Some gen_sk /\ contents f' pk = Some gen_pk) \/ e = Exit 1%N.
Proof.
  intros On R As Ne Ks Kp. destruct (run (GenKeys file public secret force) f) as [f1 o] eqn:E.
  destruct (C108_status_partial umask run m _ a f f1 o On E) as (e' & R' & S0 & S1 & S2 & S3 & S4).
  rewrite R in R'. assert (f' = f1) as -> by congruence. assert (e' = e) as -> by congruence. clear R R'.
  pose proof (C43_written_partial resolve junk toml to_toml example home umask api api_args gen_sk gen_pk rand w1 w2 file public secret force f pk sk
    As Ne Ks Kp) as W.
  rewrite E in W. cbn [fst snd] in W.
  destruct o.
  - left. destruct (W eq_refl). split; [now apply S0|]. auto.
  - right. now apply S1.
  - exfalso. cbn [Config.run] in E. destruct (gen_keys_eq resolve junk toml to_toml example home umask api api_args gen_sk gen_pk rand w1 w2 file public secret force f) as [(p1 & k1 & _ & G)|[_ G]];
      cbn [Config.run] in G; rewrite E in G; [|discriminate].
    destruct (_ && _); [discriminate|]. unfold save_keypair in G.
    destruct (store_secret umask w1 k1 gen_sk f) as [g [|]]; [|discriminate].
    destruct (store_public umask w2 p1 gen_pk g) as [g' [|]]; discriminate.
  - exfalso. cbn [Config.run] in E. destruct (gen_keys_eq resolve junk toml to_toml example home umask api api_args gen_sk gen_pk rand w1 w2 file public secret force f) as [(p1 & k1 & _ & G)|[_ G]];
      cbn [Config.run] in G; rewrite E in G; [|discriminate].
    destruct (_ && _); [discriminate|]. unfold save_keypair in G.
    destruct (store_secret umask w1 k1 gen_sk f) as [g [|]]; [|discriminate].
    destruct (store_public umask w2 p1 gen_pk g) as [g' [|]]; discriminate.
Qed.

(** C108 fails: `rosenpass validate` ends with status 0 whatever is wrong with the files *)
Theorem C108_validate_refuted a files f : only (Validate files) a -> rosenpass a f = (f, Exit 0%N).
Proof.
  intros On. destruct (C108_status_partial umask run m (Validate files) a f f Done On eq_refl) as (e & -> & S & _). f_equal. now apply S.
Qed.
End Commands.
Print Assumptions C108_gen_keys.
Print Assumptions C108_validate_refuted.

(** * C108: rp *)

Section RpMain.
Variable sockaddr : string -> option addr.
Variable u32 : string -> option N.
Variable show_addr : addr -> string.
Variable show_n : N -> string.
Variables (works : effect -> bool) (devs : string -> bool) (checks : bool) (junk : bytes -> bytes -> option bytes) (rand_sk : bytes) (binds : bool)
  (rand_psk : nat -> bytes) (toml : bytes -> option xopts) (x25519 : bytes -> bytes) (umask : N) (can : path -> bool) (w1 w2 w3 : wplan)
  (wgsk pqsk pqpk : bytes).
Notation gen := (genkey umask can w1 w2 w3 wgsk pqsk pqpk).
Notation pub := (pubkey x25519 junk rand_sk umask can w1 w2).
Notation exch := (rp_exchange show_addr show_n works devs checks junk rand_sk binds rand_psk).
Notation conf := (rp_exchange_config show_addr show_n works devs checks junk rand_sk binds rand_psk toml).
Notation rp := (rp_main (cli_parse sockaddr u32) gen pub exch conf).

(** What a command does, as Rp.v models it: files, effects, and whether it succeeded, failed, panicked or serves *)
Inductive came_to := Succeeded | GaveUp | Broke | Keeps (s : xserver).
Definition does (verbose : bool) (c : rp_command) (f : fs) : fs * list effect * came_to :=
  let served (r : list effect * xoutcome * list effect) :=
    match r with
    | (es, XFailed, fin) => (f, es ++ fin, GaveUp)
    | (es, XPanicked, _) => (f, es, Broke)
    | (es, XRunning s, _) => (f, es, Keeps s)
    end in
  match c with
  | RGenKey d => (fst (gen d f), [], if snd (gen d f) then Succeeded else GaveUp)
  | RPubKey d p => (fst (pub d p f), [], if snd (pub d p f) then Succeeded else GaveUp)
  | RExchange o => served (exch f verbose o)
  | RExchangeConfig p => served (conf f verbose p)
  | RHelp => (f, [], Succeeded)
  end.

(** C108: a line of arguments that makes no sense (C47): status 1, and neither a file nor the network is touched *)
Theorem C108_rp_usage exe args f : (forall l, args = rp_words l -> ~ rp_right sockaddr u32 l) ->
  rp (exe :: args) f = {| rr_fs := f; rr_effects := []; rr_end := Exit 1%N |}.
Proof.
  intros N. unfold rp_main. destruct (cli_parse sockaddr u32 (exe :: args)) as [c|[]|] eqn:E.
  - apply C47_exact in E. destruct E as (l & Ea & Hr & _). destruct (N l Ea Hr).
  - reflexivity.
  - destruct (C47_total sockaddr u32 _ E).
Qed.

(** C108: for a sensible line that says [c], the program does what the command does; it ends with 0 exactly if that succeeded, with 1 exactly if
    it gave up with an error, with 101 exactly if it panicked *)
Theorem C108_rp_status exe l c x f f' es r : rp_right sockaddr u32 l -> rp_says sockaddr u32 l c -> cl_command c = Some x ->
  does (cl_verbose c) x f = (f', es, r) ->
  exists e, rp (exe :: rp_words l) f = {| rr_fs := f'; rr_effects := es; rr_end := e |} /\
  (e = Exit 0%N <-> r = Succeeded) /\ (e = Exit 1%N <-> r = GaveUp) /\ (e = Exit 101%N <-> r = Broke) /\
  (forall s, e = Serves s <-> r = Keeps s) /\ (forall n, e = Exit n -> n = 0%N \/ n = 1%N \/ n = 101%N).
Proof.
  intros Hr Hs Cx D.
  assert (cli_parse sockaddr u32 (exe :: rp_words l) = Ok c) as E by (apply C47_exact; eauto).
  unfold rp_main. rewrite E, Cx.
  assert (Fin : forall (r : came_to) (e : ending xserver),
    e = match r with Succeeded => Exit 0%N | GaveUp => Exit 1%N | Broke => Exit 101%N | Keeps s => Serves s end ->
    (e = Exit 0%N <-> r = Succeeded) /\ (e = Exit 1%N <-> r = GaveUp) /\ (e = Exit 101%N <-> r = Broke) /\
    (forall s, e = Serves s <-> r = Keeps s) /\ (forall n, e = Exit n -> n = 0%N \/ n = 1%N \/ n = 101%N)).
  { intros q e ->. destruct q; repeat split; intros; try discriminate; try congruence; auto;
      match goal with K : Exit _ = Exit ?n |- _ => assert (n = 0%N \/ n = 1%N \/ n = 101%N) by (injection K as <-; auto); auto end. }
  destruct x as [d|d p|o|p|]; unfold does in D.
  - destruct (gen d f) as [g [|]]; cbn [fst snd] in *; assert (f' = g) as -> by congruence; assert (es = []) as -> by congruence;
      (eexists; split; [reflexivity|]); apply Fin; assert (r = _) as -> by (symmetry; exact (f_equal snd D)); reflexivity.
  - destruct (pub d p f) as [g [|]]; cbn [fst snd] in *; assert (f' = g) as -> by congruence; assert (es = []) as -> by congruence;
      (eexists; split; [reflexivity|]); apply Fin; assert (r = _) as -> by (symmetry; exact (f_equal snd D)); reflexivity.
  - destruct (exch f (cl_verbose c) o) as [[es1 [| |s]] fin]; assert (f' = f) as -> by congruence;
      assert (r = _) as -> by (symmetry; exact (f_equal snd D)); assert (es = _) as -> by (symmetry; exact (f_equal (fun t => snd (fst t)) D));
      cbn [fst snd]; (eexists; split; [reflexivity|]); apply Fin; reflexivity.
  - destruct (conf f (cl_verbose c) p) as [[es1 [| |s]] fin]; assert (f' = f) as -> by congruence;
      assert (r = _) as -> by (symmetry; exact (f_equal snd D)); assert (es = _) as -> by (symmetry; exact (f_equal (fun t => snd (fst t)) D));
      cbn [fst snd]; (eexists; split; [reflexivity|]); apply Fin; reflexivity.
  - assert (f' = f) as -> by congruence. assert (es = []) as -> by congruence. assert (r = Succeeded) as -> by congruence.
    eexists. split; [reflexivity|]. apply Fin. reflexivity.
Qed.

(** C108: after `rp genkey DIR` with status 0, the directory holds a WireGuard key and both keys of one pair, each read back as it was made *)
Theorem C108_rp_genkey exe d f f' es : nothing_in d f -> d <> "" -> wgsk <> [] ->
  rp [exe; "genkey"; d] f = {| rr_fs := f'; rr_effects := es; rr_end := Exit 0%N |} ->
  es = [] /\ (exists k, f' d = Some (NDir k)) /\
  (forall junk' out, length out = length wgsk -> load_b64 junk' WG_B64_LEN out (join d "wgsk") f' = Some wgsk) /\
  load (N.of_nat (length pqsk)) (join d "pqsk") f' = Some pqsk /\ load (N.of_nat (length pqpk)) (join d "pqpk") f' = Some pqpk.
Proof.
  intros Ni Nd Nw R. unfold rp_main in R. cbn [cli_parse tl] in R.
  assert (cli_parse sockaddr u32 [exe; "genkey"; d] = Ok {| cl_verbose := false; cl_command := Some (RGenKey d) |}) as E by reflexivity.
  rewrite E in R. cbn [cl_command] in R.
  destruct (gen d f) as [g b] eqn:G. cbn [fst snd] in R.
  assert (g = f') as -> by (exact (f_equal rr_fs R)). assert (es = []) as -> by (symmetry; exact (f_equal rr_effects R)).
  assert (b = true) as ->. { pose proof (f_equal rr_end R) as X. cbn in X. destruct b; [reflexivity|discriminate]. }
  split; [reflexivity|]. exact (C44_success_partial umask can w1 w2 w3 wgsk pqsk pqpk d f f' Ni Nd Nw G).
Qed.
End RpMain.
Print Assumptions C108_rp_usage.
Print Assumptions C108_rp_status.
Print Assumptions C108_rp_genkey.

(** * Cases *)

Definition no_log : rust_log := {| rl_all := None; rl_named := fun _ => None; rl_empty := true |}.
Definition one_module : rust_log :=
  {| rl_all := None; rl_named := fun m => if String.prefix "rosenpass::protocol" m then Some LTrace else None; rl_empty := false |}.
(** A module that is not named, one that is, and what is logged with --log-level info *)
Example C107_case :
  rl_named one_module "rosenpass::app_server" = None /\ rl_named one_module "rosenpass::protocol::osk" = Some LTrace /\
  map (shown one_module (Some LInfo) "rosenpass::app_server") [LError; LWarn; LInfo; LDebug; LTrace] = [true; true; true; false; false] /\
  map (shown one_module (Some LInfo) "rosenpass::protocol::osk") [LError; LWarn; LInfo; LDebug; LTrace] = [true; true; true; true; true] /\
  map (shown no_log None "rosenpass::app_server") [LError; LWarn; LInfo; LDebug; LTrace] = [true; false; false; false; false].
Proof. repeat split. Qed.

Definition asks (c : option command) (man : option path) : args :=
  {| ar_log := {| la_level := None; la_verbose := true; la_quiet := false |}; ar_shell := false; ar_man := man; ar_command := c; ar_clash := false; ar_any := true |}.
Definition a_dir : fs := fun p => if String.eqb p "man" then Some (NDir 493) else None.
Definition a_plan : man_plan := {| mp_can := fun _ => true; mp_pages := [("rosenpass-validate.1", [x41], WStops 0)]; mp_page := [x41; x42; x43]; mp_last := WStops 1 |}.
Example C108_case :
  only (Validate ["a.toml"]) (asks (Some (Validate ["a.toml"])) None) /\
  accepted (asks None (Some "man")) /\ prefixes "man" = ["man"] /\
  (exists f', rosenpass (A := unit) 0 (fun _ f => (f, Failed)) a_plan (asks None (Some "man")) a_dir = (f', Exit 0%N) /\
     contents f' (join "man" "rosenpass.1") = Some [x41] /\ contents f' (join "man" "rosenpass-validate.1") = Some []) /\
  ~ accepted {| ar_log := {| la_level := None; la_verbose := true; la_quiet := true |}; ar_shell := false; ar_man := None; ar_command := None; ar_clash := false; ar_any := true |}.
Proof.
  split. { repeat split; cbn; intros [? ?]; congruence. }
  split. { repeat split; cbn; intros [? ?]; congruence. }
  split; [reflexivity|].
  split. { eexists. split; [reflexivity|]. split; reflexivity. }
  intros (_ & _ & _ & _ & H). now apply H.
Qed.
Example C108_rp_case :
  let rp := rp_main (cli_parse (fun _ => None) (fun _ => None)) (genkey 0 (fun _ => true) WAll WAll WAll [x01; x02] [x03] [x04])
    (fun _ _ f => (f, false)) (fun _ _ _ => ([], XFailed, [])) (fun _ _ _ => ([], XPanicked, [])) in
  nothing_in "keys" (fun _ => None) /\
  rr_end (rp ["rp"; "genkey"; "keys"] (fun _ => None)) = Exit 0%N /\
  contents (rr_fs (rp ["rp"; "genkey"; "keys"] (fun _ => None))) (join "keys" "pqsk") = Some [x03] /\
  rr_end (rp ["rp"; "genkey"] (fun _ => None)) = Exit 1%N /\
  rr_end (rp ["rp"; "verbose"] (fun _ => None)) = Exit 1%N /\
  rr_end (rp ["rp"; "exchange-config"; "x.toml"] (fun _ => None)) = Exit 101%N.
Proof. cbn zeta. split; [intros n _; reflexivity|]. repeat split. Qed.
