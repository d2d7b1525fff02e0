(** Properties of the configuration and the commands of `rosenpass`: C42, C43, C69, C77. *)
From Coq Require Import Strings.Ascii Strings.String.
From Verif Require Import Base Files PFiles Config.
Local Open Scope string_scope.
Local Open Scope list_scope.

(** * Specification of the command line *)

(** What can be said about the server itself, and about a peer *)
Inductive own_opt := OPublic (file : string) | OSecret (file : string) | OPrivate (file : string) | OListen (addr : string) | OVerbose.
Inductive peer_opt := PPublic (file : string) | PEndpoint (addr : string) | PPreshared (file : string) | POutfile (file : string).
(** A peer: options, and at the end the WireGuard device, peer and further parameters *)
Record peer_args := { a_opts : list peer_opt; a_wg : option (string * string * list string) }.
Record cmdline := { a_own : list own_opt; a_peers : list peer_args }.

(** How it is written *)
Definition own_words (o : own_opt) : list string :=
  match o with
  | OPublic f => ["public-key"; f] | OSecret f => ["secret-key"; f] | OPrivate f => ["private-key"; f]
  | OListen a => ["listen"; a] | OVerbose => ["verbose"]
  end.
Definition opt_words (o : peer_opt) : list string :=
  match o with
  | PPublic f => ["public-key"; f] | PEndpoint a => ["endpoint"; a] | PPreshared f => ["preshared-key"; f] | POutfile f => ["outfile"; f]
  end.
Definition wg_words (w : option (string * string * list string)) : list string :=
  match w with Some (d, p, extra) => "wireguard" :: d :: p :: extra | None => [] end.
Definition peer_words (a : peer_args) : list string := "peer" :: flat_map opt_words (a_opts a) ++ wg_words (a_wg a).
Definition words (c : cmdline) : list string := flat_map own_words (a_own c) ++ flat_map peer_words (a_peers c).

(** The values given for an option *)
Definition publics (l : list own_opt) := flat_map (fun o => match o with OPublic f => [f] | _ => [] end) l.
Definition secrets (l : list own_opt) := flat_map (fun o => match o with OSecret f | OPrivate f => [f] | _ => [] end) l.
Definition listens (l : list own_opt) := flat_map (fun o => match o with OListen a => [a] | _ => [] end) l.
Definition ppublics (l : list peer_opt) := flat_map (fun o => match o with PPublic f => [f] | _ => [] end) l.
Definition endpoints (l : list peer_opt) := flat_map (fun o => match o with PEndpoint a => [a] | _ => [] end) l.
Definition psks (l : list peer_opt) := flat_map (fun o => match o with PPreshared f => [f] | _ => [] end) l.
Definition outfiles (l : list peer_opt) := flat_map (fun o => match o with POutfile f => [f] | _ => [] end) l.
Definition at_most_once {X} (l : list X) : Prop := (length l <= 1)%nat.

(** A command line that makes sense: what can be given once is not given twice, there is a keypair if there are peers, addresses to
    listen at can be resolved, and no further parameter of WireGuard is the word that begins the next peer *)
Definition own_sensible {A} (resolve : string -> option (list A)) (l : list own_opt) : Prop :=
  at_most_once (publics l) /\ at_most_once (secrets l) /\ forall a, In a (listens l) -> resolve a <> None.
Definition peer_sensible (a : peer_args) : Prop :=
  at_most_once (ppublics (a_opts a)) /\ at_most_once (endpoints (a_opts a)) /\ at_most_once (psks (a_opts a)) /\
  at_most_once (outfiles (a_opts a)) /\
  match a_wg a with Some (_, _, extra) => ~ In "peer" extra | None => True end.
Definition sensible {A} (resolve : string -> option (list A)) (c : cmdline) : Prop :=
  own_sensible resolve (a_own c) /\ Forall peer_sensible (a_peers c) /\
  (a_peers c <> [] -> publics (a_own c) <> [] /\ secrets (a_own c) <> []).
(** A peer with both an endpoint and a preshared key *)
Definition both (a : peer_args) : Prop := endpoints (a_opts a) <> [] /\ psks (a_opts a) <> [].

(** The configuration it asks for *)
Definition peer_says (a : peer_args) (p : peer) : Prop :=
  p_public p = hd "" (ppublics (a_opts a)) /\ p_endpoint p = hd_error (endpoints (a_opts a)) /\
  p_psk p = hd_error (psks (a_opts a)) /\ p_key_out p = hd_error (outfiles (a_opts a)) /\
  p_wg p = match a_wg a with Some (d, q, extra) => Some {| wg_device := d; wg_peer := q; wg_extra := extra |} | None => None end /\
  p_v03 p = false /\ p_org p = None /\ p_label p = None.
Definition own_says {A} (resolve : string -> option (list A)) (l : list own_opt) (c : config A) : Prop :=
  c_keypair c = Some {| k_public := hd "" (publics l); k_secret := hd "" (secrets l) |} /\
  (exists ls, Forall2 (fun a l => resolve a = Some l) (listens l) ls /\ c_listen c = concat ls) /\
  (c_verbosity c = Verbose <-> In OVerbose l) /\ c_api c = 0 /\ c_path c = "".
Definition says {A} (resolve : string -> option (list A)) (l : cmdline) (c : config A) : Prop :=
  own_says resolve (a_own l) c /\ Forall2 peer_says (a_peers l) (c_peers c).

(** How a command line can be cut off: behind an option that wants a value, or behind the WireGuard device *)
Inductive cut := CWhole | CWord (k : string) | CDevice (d : string).
Definition cut_words (x : cut) : list string := match x with CWhole => [] | CWord k => [k] | CDevice d => ["wireguard"; d] end.
Definition own_keywords := ["public-key"; "secret-key"; "private-key"; "listen"].
Definition peer_keywords := ["public-key"; "endpoint"; "preshared-key"; "outfile"; "wireguard"].
Definition cut_fits (c : cmdline) (x : cut) : Prop :=
  match x with
  | CWhole => True
  | CWord k => match rev (a_peers c) with [] => In k own_keywords | a :: _ => a_wg a = None /\ In k peer_keywords end
  | CDevice _ => match rev (a_peers c) with [] => False | a :: _ => a_wg a = None end
  end.

(** * The parser *)

Section Parser.
Context {A : Type}.
Variable resolve : string -> option (list A).
Notation pvars := (@pvars A).
Notation parse_arg := (parse_arg resolve).
Notation parse_run := (parse_run resolve).
Notation parse_args := (parse_args resolve).

(** What the parser really asks of a peer: an endpoint or a preshared key, not both *)
Definition fine_peer (l : list peer_opt) : Prop :=
  at_most_once (ppublics l) /\ (length (endpoints l) + length (psks l) <= 1)%nat /\ at_most_once (outfiles l).

Definition nonempty {X} (l : list X) : bool := match l with [] => false | _ => true end.
(** The parser is between options of the server *)
Definition in_own (l : list own_opt) (v : pvars) : Prop :=
  v_state v = Own /\ v_peer v = None /\ already v OwnPublicKey = nonempty (publics l) /\ already v OwnSecretKey = nonempty (secrets l) /\
  own_says resolve l (v_cfg v) /\ c_peers (v_cfg v) = [].
(** The parser is between options of a peer, with the peers [done] behind it *)
Definition in_peer (own : list own_opt) (done : list peer_args) (l : list peer_opt) (v : pvars) : Prop :=
  v_state v = Peer /\ (exists p, v_peer v = Some p /\ peer_says {| a_opts := l; a_wg := None |} p) /\
  already v PeerPublicKey = nonempty (ppublics l) /\
  already v PeerEndpoint = (nonempty (endpoints l) || nonempty (psks l)) /\
  already v PeerOutfile = nonempty (outfiles l) /\ already v PeerWireguardDev = false /\ already v PeerWireguardPeer = false /\
  own_says resolve own (v_cfg v) /\ Forall2 peer_says done (c_peers (v_cfg v)).
(** The parser is in the parameters of WireGuard *)
Definition in_extra (own : list own_opt) (done : list peer_args) (l : list peer_opt) (w : string * string * list string) (v : pvars) : Prop :=
  v_state v = PeerWireguardExtraArgs /\ (exists p, v_peer v = Some p /\ peer_says {| a_opts := l; a_wg := Some w |} p) /\
  own_says resolve own (v_cfg v) /\ Forall2 peer_says done (c_peers (v_cfg v)).

Lemma run_app (v : pvars) a b : parse_run v (a ++ b) = match parse_run v a with Ok v => parse_run v b | Err e => Err e | Panic => Panic end.
Proof. revert v; induction a as [|x a IH]; intros v; [reflexivity|]. cbn [List.app Config.parse_run]. destruct (parse_arg v x); auto. Qed.

Lemma nonempty_snoc {X} (l : list X) x : nonempty (l ++ [x]) = true.
Proof. destruct l; reflexivity. Qed.
Lemma nonempty_false {X} (l : list X) : nonempty l = false -> l = [].
Proof. destruct l; [reflexivity|discriminate]. Qed.
Lemma nonempty_true {X} (l : list X) : nonempty l = true -> l <> [].
Proof. destruct l; [discriminate|discriminate]. Qed.
Lemma once_snoc {X} (l : list X) x : at_most_once (l ++ [x]) <-> l = [].
Proof. unfold at_most_once. rewrite app_length. cbn [length]. destruct l; cbn [length]; split; try discriminate; try lia; auto. Qed.
Lemma once_app {X} (l l' : list X) : at_most_once (l ++ l') -> at_most_once l.
Proof. unfold at_most_once. rewrite app_length. lia. Qed.

Lemma publics_app a b : publics (a ++ b) = publics a ++ publics b. Proof. apply flat_map_app. Qed.
Lemma secrets_app a b : secrets (a ++ b) = secrets a ++ secrets b. Proof. apply flat_map_app. Qed.
Lemma listens_app a b : listens (a ++ b) = listens a ++ listens b. Proof. apply flat_map_app. Qed.
Lemma ppublics_app a b : ppublics (a ++ b) = ppublics a ++ ppublics b. Proof. apply flat_map_app. Qed.
Lemma endpoints_app a b : endpoints (a ++ b) = endpoints a ++ endpoints b. Proof. apply flat_map_app. Qed.
Lemma psks_app a b : psks (a ++ b) = psks a ++ psks b. Proof. apply flat_map_app. Qed.
Lemma outfiles_app a b : outfiles (a ++ b) = outfiles a ++ outfiles b. Proof. apply flat_map_app. Qed.

Lemma own_sensible_app a b : own_sensible resolve (a ++ b) -> own_sensible resolve a.
Proof.
  intros (P & S0 & L). rewrite publics_app in P. rewrite secrets_app in S0. rewrite listens_app in L.
  split; [|split]; eauto using once_app. intros x H. apply L, in_or_app. auto.
Qed.

(** One option of the server *)
Definition own_step (l : list own_opt) (o : own_opt) (v : pvars) : Prop :=
  match parse_run v (own_words o) with
  | Ok v' => own_sensible resolve (l ++ [o]) /\ in_own (l ++ [o]) v'
  | Err _ => ~ own_sensible resolve (l ++ [o])
  | Panic => False
  end.

Lemma sensible_snoc l o : own_sensible resolve l ->
  match o with
  | OPublic _ => publics l = []
  | OSecret _ | OPrivate _ => secrets l = []
  | OListen a => resolve a <> None
  | OVerbose => True
  end <-> own_sensible resolve (l ++ [o]).
Proof.
  intros (P & S0 & L). unfold own_sensible. rewrite publics_app, secrets_app, listens_app.
  destruct o; cbn [publics secrets listens flat_map List.app]; rewrite ?app_nil_r, ?once_snoc; try tauto.
  split.
  - intros R. split; [exact P|]. split; [exact S0|]. intros a H. apply in_app_or in H as [H|[<-|[]]]; auto.
  - intros (_ & _ & H). apply H, in_or_app. right. left. reflexivity.
Qed.

(** The second word of an option of the server, and of a peer *)
Lemma own_value v arg s : v_peer v = None ->
  parse_arg (vgo s v) arg = parse_arg {| v_state := s; v_set := v_set v; v_peer := None; v_cfg := v_cfg v |} arg.
Proof. intros H. unfold vgo. rewrite H. reflexivity. Qed.
Lemma own_public_value v arg : v_peer v = None -> parse_arg (vgo OwnPublicKey v) arg =
  if already v OwnPublicKey then Err tt
  else match set_public (v_cfg v) arg with
       | Some c => Ok {| v_state := Own; v_set := OwnPublicKey :: v_set v; v_peer := None; v_cfg := c |}
       | None => Panic
       end.
Proof. intros H. rewrite own_value by assumption. reflexivity. Qed.
Lemma own_secret_value v arg : v_peer v = None -> parse_arg (vgo OwnSecretKey v) arg =
  if already v OwnSecretKey then Err tt
  else match set_secret (v_cfg v) arg with
       | Some c => Ok {| v_state := Own; v_set := OwnSecretKey :: v_set v; v_peer := None; v_cfg := c |}
       | None => Panic
       end.
Proof. intros H. rewrite own_value by assumption. reflexivity. Qed.
Lemma own_listen_value v arg : v_peer v = None -> parse_arg (vgo OwnListen v) arg =
  match resolve arg with
  | Some l => Ok {| v_state := Own; v_set := OwnListen :: v_set v; v_peer := None; v_cfg := with_listen (v_cfg v) (c_listen (v_cfg v) ++ l) |}
  | None => Err tt
  end.
Proof. intros H. rewrite own_value by assumption. reflexivity. Qed.

Definition own_word (k : string) (v : pvars) : res unit pvars :=
  if String.eqb k "public-key" then Ok (vgo OwnPublicKey v)
  else if String.eqb k "secret-key" then Ok (vgo OwnSecretKey v)
  else if String.eqb k "private-key" then Ok (vgo OwnSecretKey v)
  else if String.eqb k "listen" then Ok (vgo OwnListen v)
  else if String.eqb k "verbose" then Ok {| v_state := Own; v_set := v_set v; v_peer := None; v_cfg := with_verbosity (v_cfg v) Verbose |}
  else if String.eqb k "peer" then
    if negb (already v OwnPublicKey) then Err tt
    else if negb (already v OwnSecretKey) then Err tt
    else Ok {| v_state := Peer; v_set := []; v_peer := Some peer0; v_cfg := v_cfg v |}
  else Err tt.
Lemma own_word_eq v k : v_state v = Own -> v_peer v = None -> parse_arg v k = own_word k v.
Proof. intros H H'. unfold Config.parse_arg, own_word. rewrite H, H'. reflexivity. Qed.

Lemma already_cons (v : pvars) s t (c : config A) p q : already {| v_state := s; v_set := t :: v_set v; v_peer := p; v_cfg := c |} q = pstate_eqb q t || already v q.
Proof. reflexivity. Qed.

Lemma own_says_public l c f c' : publics l = [] -> own_says resolve l c -> set_public c f = Some c' -> own_says resolve (l ++ [OPublic f]) c' /\ c_peers c' = c_peers c.
Proof.
  intros Ne (K & (ls & F & C) & V & Ap & Pa) H. unfold set_public in H. rewrite K in H.
  assert (E : c' = with_keypair c (Some {| k_public := f; k_secret := hd "" (secrets l) |})) by (cbn [k_secret] in H; congruence). subst c'.
  split; [|reflexivity].
  unfold own_says. rewrite publics_app, secrets_app, listens_app. cbn [publics secrets listens flat_map List.app].
  rewrite !app_nil_r, Ne. cbn. rewrite in_app_iff. cbn [In]. repeat split; eauto; try tauto.
  intros [X|[X|[]]]; [tauto|discriminate X].
Qed.
Lemma own_says_secret l c f c' o : o = OSecret f \/ o = OPrivate f -> secrets l = [] -> own_says resolve l c -> set_secret c f = Some c' ->
  own_says resolve (l ++ [o]) c' /\ c_peers c' = c_peers c.
Proof.
  intros O Ne (K & (ls & F & C) & V & Ap & Pa) H. unfold set_secret in H. rewrite K in H.
  assert (E : c' = with_keypair c (Some {| k_public := hd "" (publics l); k_secret := f |})) by (cbn [k_public] in H; congruence). subst c'.
  split; [|reflexivity].
  unfold own_says. rewrite publics_app, secrets_app, listens_app.
  destruct O as [-> | ->]; cbn [publics secrets listens flat_map List.app]; rewrite !app_nil_r, Ne; cbn; rewrite in_app_iff; cbn [In]; repeat split; eauto; try tauto.
  all: intros [X|[X|[]]]; [tauto|discriminate X].
Qed.
Lemma own_says_listen l c a r : own_says resolve l c -> resolve a = Some r -> own_says resolve (l ++ [OListen a]) (with_listen c (c_listen c ++ r)).
Proof.
  intros (K & (ls & F & C) & V & Ap & Pa) H. unfold own_says. rewrite publics_app, secrets_app, listens_app. cbn [publics secrets listens flat_map List.app].
  rewrite !app_nil_r. cbn. rewrite in_app_iff. cbn [In]. repeat split; auto; try tauto.
  - exists (ls ++ [r]). split; [apply Forall2_app; auto|]. rewrite C, concat_app. cbn [concat]. now rewrite app_nil_r.
  - intros [X|[X|[]]]; [tauto|discriminate X].
Qed.
Lemma own_says_verbose l c : own_says resolve l c -> own_says resolve (l ++ [OVerbose]) (with_verbosity c Verbose).
Proof.
  intros (K & (ls & F & C) & V & Ap & Pa). unfold own_says. rewrite publics_app, secrets_app, listens_app. cbn [publics secrets listens flat_map List.app].
  rewrite !app_nil_r. cbn. rewrite in_app_iff. cbn [In]. repeat split; eauto.
Qed.

Lemma own_step_ok l o v : own_sensible resolve l -> in_own l v -> own_step l o v.
Proof.
  intros Sens (St & Np & A1 & A2 & Sy & Ps). pose proof (sensible_snoc l o Sens) as SS.
  unfold own_step. destruct o as [f|f|f|a|]; cbn [own_words Config.parse_run]; rewrite own_word_eq by assumption; unfold own_word; cbn [String.eqb Ascii.eqb Bool.eqb].
  - rewrite own_public_value, A1 by assumption. destruct (nonempty (publics l)) eqn:Ne; [intros H; apply SS in H; rewrite H in Ne; discriminate|].
    apply nonempty_false in Ne. destruct (set_public (v_cfg v) f) as [c'|] eqn:E; [|unfold set_public in E; destruct Sy as [K _]; rewrite K in E; discriminate].
    destruct (own_says_public _ _ _ _ Ne Sy E) as [S' P']. split; [now apply SS|].
    split; [reflexivity|]. split; [reflexivity|]. rewrite !already_cons, publics_app, secrets_app. cbn [publics secrets flat_map List.app pstate_eqb orb v_cfg].
    rewrite nonempty_snoc, app_nil_r. rewrite P'. auto.
  - rewrite own_secret_value, A2 by assumption. destruct (nonempty (secrets l)) eqn:Ne; [intros H; apply SS in H; rewrite H in Ne; discriminate|].
    apply nonempty_false in Ne. destruct (set_secret (v_cfg v) f) as [c'|] eqn:E; [|unfold set_secret in E; destruct Sy as [K _]; rewrite K in E; discriminate].
    destruct (own_says_secret _ _ _ _ (OSecret f) ltac:(auto) Ne Sy E) as [S' P']. split; [now apply SS|].
    split; [reflexivity|]. split; [reflexivity|]. rewrite !already_cons, publics_app, secrets_app. cbn [publics secrets flat_map List.app pstate_eqb orb v_cfg].
    rewrite nonempty_snoc, app_nil_r. rewrite P'. auto.
  - rewrite own_secret_value, A2 by assumption. destruct (nonempty (secrets l)) eqn:Ne; [intros H; apply SS in H; rewrite H in Ne; discriminate|].
    apply nonempty_false in Ne. destruct (set_secret (v_cfg v) f) as [c'|] eqn:E; [|unfold set_secret in E; destruct Sy as [K _]; rewrite K in E; discriminate].
    destruct (own_says_secret _ _ _ _ (OPrivate f) ltac:(auto) Ne Sy E) as [S' P']. split; [now apply SS|].
    split; [reflexivity|]. split; [reflexivity|]. rewrite !already_cons, publics_app, secrets_app. cbn [publics secrets flat_map List.app pstate_eqb orb v_cfg].
    rewrite nonempty_snoc, app_nil_r. rewrite P'. auto.
  - rewrite own_listen_value by assumption. destruct (resolve a) as [r|] eqn:E; [|intros H; apply SS in H; congruence].
    split; [apply SS; congruence|]. split; [reflexivity|]. split; [reflexivity|].
    rewrite !already_cons, publics_app, secrets_app. cbn [publics secrets flat_map List.app pstate_eqb orb v_cfg]. rewrite !app_nil_r.
    split; [assumption|]. split; [assumption|]. split; [now apply own_says_listen|assumption].
  - split; [now apply SS|]. split; [reflexivity|]. split; [reflexivity|].
    rewrite publics_app, secrets_app. cbn [publics secrets flat_map List.app v_cfg]. rewrite !app_nil_r.
    split; [assumption|]. split; [assumption|]. split; [now apply own_says_verbose|assumption].
Qed.

Lemma own_run l' : forall l v, own_sensible resolve l -> in_own l v ->
  match parse_run v (flat_map own_words l') with
  | Ok v' => own_sensible resolve (l ++ l') /\ in_own (l ++ l') v'
  | Err _ => ~ own_sensible resolve (l ++ l')
  | Panic => False
  end.
Proof.
  induction l' as [|o l' IH]; intros l v Sens I; [cbn; rewrite app_nil_r; auto|].
  cbn [flat_map]. rewrite run_app. pose proof (own_step_ok l o v Sens I) as H. unfold own_step in H.
  replace (l ++ o :: l') with ((l ++ [o]) ++ l') by (rewrite <- app_assoc; reflexivity).
  destruct (parse_run v (own_words o)) as [v'| |]; [|intros X; apply own_sensible_app in X; auto|assumption].
  destruct H as [H1 H2]. exact (IH _ _ H1 H2).
Qed.

Lemma init_in_own : in_own [] parse_init.
Proof.
  split; [reflexivity|]. split; [reflexivity|]. split; [reflexivity|]. split; [reflexivity|]. split; [|reflexivity].
  split; [reflexivity|]. split; [exists []; split; [constructor|reflexivity]|]. split; [|split; reflexivity]. split; [discriminate|intros []].
Qed.
Lemma nil_sensible : own_sensible resolve [].
Proof. split; [|split]; unfold at_most_once; cbn; auto; lia. Qed.

(** ** A peer *)

Definition peer_word (k : string) (p : peer) (v : pvars) : res unit pvars :=
  if String.eqb k "peer" then
    Ok {| v_state := Peer; v_set := []; v_peer := Some peer0; v_cfg := with_peers (v_cfg v) (c_peers (v_cfg v) ++ [p]) |}
  else if String.eqb k "public-key" then Ok (vgo PeerPublicKey v)
  else if String.eqb k "endpoint" then Ok (vgo PeerEndpoint v)
  else if String.eqb k "preshared-key" then Ok (vgo PeerPsk v)
  else if String.eqb k "outfile" then Ok (vgo PeerOutfile v)
  else if String.eqb k "wireguard" then Ok (vgo PeerWireguardDev v)
  else Err tt.
Lemma peer_word_eq v k p : v_state v = Peer -> v_peer v = Some p -> parse_arg v k = peer_word k p v.
Proof. intros H H'. unfold Config.parse_arg, peer_word. rewrite H, H'. reflexivity. Qed.
Lemma peer_value v arg s p : v_peer v = Some p ->
  parse_arg (vgo s v) arg = parse_arg {| v_state := s; v_set := v_set v; v_peer := Some p; v_cfg := v_cfg v |} arg.
Proof. intros H. unfold vgo. rewrite H. reflexivity. Qed.

Lemma already_once mark next (v : pvars) p (c : config A) :
  once mark next v p c = if already v mark then Err tt else Ok {| v_state := next; v_set := mark :: v_set v; v_peer := p; v_cfg := c |}.
Proof. reflexivity. Qed.
Lemma already_vgo s (v : pvars) q : already (vgo s v) q = already v q.
Proof. reflexivity. Qed.
Lemma already_same s (v : pvars) p (c : config A) q : already {| v_state := s; v_set := v_set v; v_peer := p; v_cfg := c |} q = already v q.
Proof. reflexivity. Qed.

Lemma fine_snoc l o : fine_peer l ->
  match o with
  | PPublic _ => ppublics l = []
  | PEndpoint _ | PPreshared _ => endpoints l = [] /\ psks l = []
  | POutfile _ => outfiles l = []
  end <-> fine_peer (l ++ [o]).
Proof.
  intros (P & E & O). unfold fine_peer. rewrite ppublics_app, endpoints_app, psks_app, outfiles_app.
  destruct o; cbn [ppublics endpoints psks outfiles flat_map List.app]; rewrite ?app_nil_r, ?once_snoc; try tauto.
  all: rewrite app_length; cbn [length]; destruct (endpoints l), (psks l); cbn [length]; split; intros H; repeat split; try tauto; try lia; try (destruct H; discriminate).
  all: destruct H as (_ & H & _); lia.
Qed.
Lemma fine_app a b : fine_peer (a ++ b) -> fine_peer a.
Proof.
  unfold fine_peer. rewrite ppublics_app, endpoints_app, psks_app, outfiles_app. intros (P & E & O). rewrite !app_length in E.
  split; [|split]; eauto using once_app; lia.
Qed.

Lemma peer_step_ok own done l o v : fine_peer l -> in_peer own done l v ->
  match parse_run v (opt_words o) with
  | Ok v' => fine_peer (l ++ [o]) /\ in_peer own done (l ++ [o]) v'
  | Err _ => ~ fine_peer (l ++ [o])
  | Panic => False
  end.
Proof.
  intros Fi (St & (p & Ep & Sy) & A1 & A2 & A3 & A4 & A5 & So & Sp). pose proof (fine_snoc l o Fi) as FS.
  destruct Sy as (Y1 & Y2 & Y3 & Y4 & Y5 & Y6 & Y7 & Y8). cbn [a_opts a_wg] in *.
  destruct o as [f|e|f|f]; cbn [opt_words Config.parse_run]; rewrite (peer_word_eq v _ p) by assumption; unfold peer_word; cbn [String.eqb Ascii.eqb Bool.eqb];
    rewrite (peer_value _ _ _ p) by assumption; unfold Config.parse_arg; cbn [v_state v_peer]; rewrite already_once, already_same.
  - rewrite A1. destruct (nonempty (ppublics l)) eqn:Ne; [intros H; apply FS in H; rewrite H in Ne; discriminate|]. apply nonempty_false in Ne.
    split; [now apply FS|]. unfold in_peer. cbn [v_state v_peer v_cfg v_set]. split; [reflexivity|].
    rewrite !(already_cons v). rewrite ppublics_app, endpoints_app, psks_app, outfiles_app. cbn [ppublics endpoints psks outfiles flat_map List.app pstate_eqb orb].
    rewrite !app_nil_r, nonempty_snoc. split; [|auto 10]. eexists. split; [reflexivity|].
    unfold peer_says. cbn [a_opts a_wg]. rewrite ppublics_app, endpoints_app, psks_app, outfiles_app. cbn [ppublics endpoints psks outfiles flat_map List.app].
    rewrite !app_nil_r, Ne. cbn. auto 10.
  - rewrite A2. destruct (nonempty (endpoints l)) eqn:Ne; [intros H; apply FS in H as [H _]; rewrite H in Ne; discriminate|].
    destruct (nonempty (psks l)) eqn:Nf; [intros H; apply FS in H as [_ H]; rewrite H in Nf; discriminate|].
    apply nonempty_false in Ne, Nf. split; [now apply FS|]. unfold in_peer. cbn [v_state v_peer v_cfg v_set]. split; [reflexivity|].
    rewrite !(already_cons v). rewrite ppublics_app, endpoints_app, psks_app, outfiles_app. cbn [ppublics endpoints psks outfiles flat_map List.app pstate_eqb orb].
    rewrite !app_nil_r, nonempty_snoc. split; [|auto 10]. eexists. split; [reflexivity|].
    unfold peer_says. cbn [a_opts a_wg]. rewrite ppublics_app, endpoints_app, psks_app, outfiles_app. cbn [ppublics endpoints psks outfiles flat_map List.app].
    rewrite !app_nil_r, Ne. cbn. auto 10.
  - rewrite A2. destruct (nonempty (endpoints l)) eqn:Ne; [intros H; apply FS in H as [H _]; rewrite H in Ne; discriminate|].
    destruct (nonempty (psks l)) eqn:Nf; [intros H; apply FS in H as [_ H]; rewrite H in Nf; discriminate|].
    apply nonempty_false in Ne, Nf. split; [now apply FS|]. unfold in_peer. cbn [v_state v_peer v_cfg v_set]. split; [reflexivity|].
    rewrite !(already_cons v). rewrite ppublics_app, endpoints_app, psks_app, outfiles_app. cbn [ppublics endpoints psks outfiles flat_map List.app pstate_eqb orb].
    rewrite !app_nil_r, nonempty_snoc, orb_true_r. split; [|auto 10]. eexists. split; [reflexivity|].
    unfold peer_says. cbn [a_opts a_wg]. rewrite ppublics_app, endpoints_app, psks_app, outfiles_app. cbn [ppublics endpoints psks outfiles flat_map List.app].
    rewrite !app_nil_r, Nf. cbn. auto 10.
  - rewrite A3. destruct (nonempty (outfiles l)) eqn:Ne; [intros H; apply FS in H; rewrite H in Ne; discriminate|]. apply nonempty_false in Ne.
    split; [now apply FS|]. unfold in_peer. cbn [v_state v_peer v_cfg v_set]. split; [reflexivity|].
    rewrite !(already_cons v). rewrite ppublics_app, endpoints_app, psks_app, outfiles_app. cbn [ppublics endpoints psks outfiles flat_map List.app pstate_eqb orb].
    rewrite !app_nil_r, nonempty_snoc. split; [|auto 10]. eexists. split; [reflexivity|].
    unfold peer_says. cbn [a_opts a_wg]. rewrite ppublics_app, endpoints_app, psks_app, outfiles_app. cbn [ppublics endpoints psks outfiles flat_map List.app].
    rewrite !app_nil_r, Ne. cbn. auto 10.
Qed.

Lemma peer_run own done l' : forall l v, fine_peer l -> in_peer own done l v ->
  match parse_run v (flat_map opt_words l') with
  | Ok v' => fine_peer (l ++ l') /\ in_peer own done (l ++ l') v'
  | Err _ => ~ fine_peer (l ++ l')
  | Panic => False
  end.
Proof.
  induction l' as [|o l' IH]; intros l v Fi I; [cbn; rewrite app_nil_r; auto|].
  cbn [flat_map]. rewrite run_app. pose proof (peer_step_ok own done l o v Fi I) as H.
  replace (l ++ o :: l') with ((l ++ [o]) ++ l') by (rewrite <- app_assoc; reflexivity).
  destruct (parse_run v (opt_words o)) as [v'| |]; [|intros X; apply fine_app in X; auto|assumption].
  destruct H as [H1 H2]. exact (IH _ _ H1 H2).
Qed.
Lemma nil_fine : fine_peer [].
Proof. unfold fine_peer, at_most_once. cbn. lia. Qed.

(** The parameters of WireGuard *)
Lemma wg_start own done l v d : in_peer own done l v ->
  exists v', parse_run v ["wireguard"; d] = Ok v' /\ v_state v' = PeerWireguardPeer /\
    (exists p p0, v_peer v' = Some p /\ v_peer v = Some p0 /\ p = with_wg p0 (Some {| wg_device := d; wg_peer := ""; wg_extra := [] |})) /\
    already v' PeerWireguardPeer = false /\ v_cfg v' = v_cfg v.
Proof.
  intros (St & (p & Ep & Sy) & A1 & A2 & A3 & A4 & A5 & So & Sp). cbn [Config.parse_run].
  rewrite (peer_word_eq v _ p) by assumption. unfold peer_word. cbn [String.eqb Ascii.eqb Bool.eqb]. rewrite (peer_value _ _ _ p) by assumption. unfold Config.parse_arg. cbn [v_state v_peer].
  rewrite already_same, A4. destruct Sy as (_ & _ & _ & _ & Y5 & _). cbn [a_wg] in Y5. rewrite Y5. rewrite already_once, already_same, A4.
  eexists. split; [reflexivity|]. cbn [v_state v_peer v_cfg]. split; [reflexivity|]. split; [eauto 6|].
  split; [|reflexivity]. rewrite (already_cons v). cbn [pstate_eqb orb]. exact A5.
Qed.
Lemma wg_peer_arg own done l v d q : in_peer own done l v ->
  exists v', parse_run v ["wireguard"; d; q] = Ok v' /\ in_extra own done l (d, q, []) v'.
Proof.
  intros I. change ["wireguard"; d; q] with (["wireguard"; d] ++ [q]). rewrite run_app.
  destruct (wg_start _ _ _ _ d I) as (v' & R & St & (p & p0 & Ep & Ep0 & Hp) & A5 & C). rewrite R. cbn [Config.parse_run].
  unfold Config.parse_arg. rewrite St, Ep, A5. subst p. cbn [p_wg with_wg wg_device wg_peer wg_extra]. rewrite already_once, A5.
  eexists. split; [reflexivity|]. destruct I as (_ & (p1 & Ep1 & Sy) & _ & _ & _ & _ & _ & So & Sp).
  split; [reflexivity|]. cbn [v_peer v_cfg]. rewrite C. split; [|auto]. eexists. split; [reflexivity|].
  assert (p1 = p0) by congruence. subst. destruct Sy as (Y1 & Y2 & Y3 & Y4 & Y5 & Y6 & Y7 & Y8). unfold peer_says. cbn in *. auto 10.
Qed.
Lemma extra_arg own done l d q ex v x : in_extra own done l (d, q, ex) v -> x <> "peer" ->
  exists v', parse_arg v x = Ok v' /\ in_extra own done l (d, q, ex ++ [x]) v'.
Proof.
  intros (St & (p & Ep & Sy) & So & Sp) Nx. unfold Config.parse_arg. rewrite St, Ep. apply String.eqb_neq in Nx. rewrite Nx.
  destruct Sy as (Y1 & Y2 & Y3 & Y4 & Y5 & Y6 & Y7 & Y8). cbn [a_wg a_opts] in *. rewrite Y5. eexists. split; [reflexivity|].
  split; [reflexivity|]. cbn [v_peer v_cfg]. split; [|auto]. eexists. split; [reflexivity|]. unfold peer_says. cbn in *. auto 10.
Qed.
Lemma extra_run own done l d q ex' : forall ex v, in_extra own done l (d, q, ex) v -> ~ In "peer" ex' ->
  exists v', parse_run v ex' = Ok v' /\ in_extra own done l (d, q, ex ++ ex') v'.
Proof.
  induction ex' as [|x ex' IH]; intros ex v I N; [exists v; rewrite app_nil_r; auto|].
  destruct (extra_arg _ _ _ _ _ _ _ x I) as (v' & R & I'); [intros ->; apply N; left; reflexivity|].
  cbn [Config.parse_run]. rewrite R. destruct (IH (ex ++ [x]) v' I') as (v'' & R' & I''); [intros H; apply N; right; exact H|].
  exists v''. rewrite <- app_assoc in I''. auto.
Qed.

(** Behind the words of a peer *)
Definition after_peer (own : list own_opt) (done : list peer_args) (a : peer_args) (v : pvars) : Prop :=
  match a_wg a with
  | None => in_peer own done (a_opts a) v
  | Some w => in_extra own done (a_opts a) w v
  end.
Lemma peer_body own done a v : in_peer own done [] v -> match a_wg a with Some (_, _, extra) => ~ In "peer" extra | None => True end ->
  match parse_run v (flat_map opt_words (a_opts a) ++ wg_words (a_wg a)) with
  | Ok v' => fine_peer (a_opts a) /\ after_peer own done a v'
  | Err _ => ~ fine_peer (a_opts a)
  | Panic => False
  end.
Proof.
  intros I W. rewrite run_app. pose proof (peer_run own done (a_opts a) [] v nil_fine I) as H. cbn [List.app] in H.
  destruct (parse_run v (flat_map opt_words (a_opts a))) as [v'| |]; [|assumption..]. destruct H as [Fi I'].
  unfold after_peer. destruct (a_wg a) as [[[d q] ex]|]; cbn [wg_words]; [|cbn; auto].
  change ("wireguard" :: d :: q :: ex) with (["wireguard"; d; q] ++ ex). rewrite run_app.
  destruct (wg_peer_arg _ _ _ _ d q I') as (v1 & -> & I1). destruct (extra_run _ _ _ _ _ ex [] v1 I1 W) as (v2 & -> & I2). auto.
Qed.
(** The word that begins the next peer *)
Lemma next_peer own done a v : after_peer own done a v ->
  exists v', parse_arg v "peer" = Ok v' /\ in_peer own (done ++ [a]) [] v'.
Proof.
  unfold after_peer. intros H.
  assert (X : exists p, v_peer v = Some p /\ peer_says a p /\ own_says resolve own (v_cfg v) /\ Forall2 peer_says done (c_peers (v_cfg v)) /\
    parse_arg v "peer" = Ok {| v_state := Peer; v_set := []; v_peer := Some peer0; v_cfg := with_peers (v_cfg v) (c_peers (v_cfg v) ++ [p]) |}).
  { destruct a as [l [w|]]; cbn [a_wg a_opts] in H.
    - destruct H as (St & (p & Ep & Sy) & So & Sp). exists p. unfold Config.parse_arg. rewrite St, Ep. cbn. auto 10.
    - destruct H as (St & (p & Ep & Sy) & _ & _ & _ & _ & _ & So & Sp). exists p. rewrite (peer_word_eq v _ p) by assumption. cbn. auto 10. }
  destruct X as (p & Ep & Sy & So & Sp & R). exists {| v_state := Peer; v_set := []; v_peer := Some peer0; v_cfg := with_peers (v_cfg v) (c_peers (v_cfg v) ++ [p]) |}.
  split; [exact R|]. split; [reflexivity|]. split; [exists peer0; split; [reflexivity|]; repeat split|]. cbn [v_cfg].
  repeat (split; [reflexivity|]). split; [exact So|]. cbn [c_peers with_peers]. apply Forall2_app; auto.
Qed.
Lemma first_peer own v : in_own own v ->
  match parse_arg v "peer" with
  | Ok v' => (publics own <> [] /\ secrets own <> []) /\ in_peer own [] [] v'
  | Err _ => ~ (publics own <> [] /\ secrets own <> [])
  | Panic => False
  end.
Proof.
  intros (St & Np & A1 & A2 & So & Ps). rewrite own_word_eq by assumption. cbn. rewrite A1, A2.
  destruct (nonempty (publics own)) eqn:N1; cbn [negb]; [|apply nonempty_false in N1; tauto].
  destruct (nonempty (secrets own)) eqn:N2; cbn [negb]; [|apply nonempty_false in N2; tauto].
  apply nonempty_true in N1, N2. split; [auto|]. split; [reflexivity|]. split; [exists peer0; split; [reflexivity|]; repeat split|]. cbn [v_cfg].
  repeat (split; [reflexivity|]). split; [exact So|]. rewrite Ps. constructor.
Qed.

Definition plain_extra (a : peer_args) : Prop := match a_wg a with Some (_, _, extra) => ~ In "peer" extra | None => True end.
Lemma peers_run own l : forall done a v, after_peer own done a v -> Forall plain_extra l ->
  match parse_run v (flat_map peer_words l) with
  | Ok v' => Forall (fun a => fine_peer (a_opts a)) l /\ exists done' a', done ++ a :: l = done' ++ [a'] /\ after_peer own done' a' v'
  | Err _ => ~ Forall (fun a => fine_peer (a_opts a)) l
  | Panic => False
  end.
Proof.
  induction l as [|b l IH]; intros done a v I W; [cbn; eauto|].
  cbn [flat_map]. unfold peer_words at 1. cbn [List.app Config.parse_run]. destruct (next_peer _ _ _ _ I) as (v1 & -> & I1).
  rewrite run_app. pose proof (peer_body own (done ++ [a]) b v1 I1 (Forall_inv W)) as B.
  destruct (parse_run v1 (flat_map opt_words (a_opts b) ++ wg_words (a_wg b))) as [v2| |];
    [|intros H; apply B; exact (Forall_inv H)|assumption].
  destruct B as [Fi I2]. specialize (IH (done ++ [a]) b v2 I2 (Forall_inv_tail W)).
  destruct (parse_run v2 (flat_map peer_words l)) as [v3| |]; [|intros H; apply IH; exact (Forall_inv_tail H)|assumption].
  destruct IH as (Fl & done' & a' & E & I3). split; [constructor; assumption|]. exists done', a'. rewrite <- app_assoc in E. auto.
Qed.

(** What a command line gives, and when it is accepted *)
Definition accepted (c : cmdline) : Prop :=
  own_sensible resolve (a_own c) /\ Forall (fun a => fine_peer (a_opts a)) (a_peers c) /\
  (a_peers c <> [] -> publics (a_own c) <> [] /\ secrets (a_own c) <> []).

(** The parser is behind a whole command line *)
Definition behind (c : cmdline) (v : pvars) : Prop :=
  match rev (a_peers c) with
  | [] => in_own (a_own c) v
  | a :: done => after_peer (a_own c) (rev done) a v
  end.

Lemma behind_says c v : behind c v -> says resolve c (parse_end v).
Proof.
  unfold behind, says. destruct (rev (a_peers c)) as [|a done] eqn:E.
  - intros (St & Np & _ & _ & So & Ps). unfold parse_end. rewrite Np, Ps. apply (f_equal (@rev _)) in E. rewrite rev_involutive in E. rewrite E. split; [exact So|constructor].
  - apply (f_equal (@rev _)) in E. rewrite rev_involutive in E. cbn [rev] in E. rewrite E. intros H.
    assert (X : exists p, v_peer v = Some p /\ peer_says a p /\ own_says resolve (a_own c) (v_cfg v) /\ Forall2 peer_says (rev done) (c_peers (v_cfg v))).
    { unfold after_peer in H. destruct a as [l [w|]]; cbn [a_wg a_opts] in H.
      - destruct H as (_ & (p & ? & ?) & ? & ?). eauto.
      - destruct H as (_ & (p & ? & ?) & _ & _ & _ & _ & _ & ? & ?). eauto. }
    destruct X as (p & Ep & Sy & So & Sp). unfold parse_end. rewrite Ep. split; [exact So|]. cbn [c_peers with_peers]. apply Forall2_app; auto.
Qed.

Lemma words_run c : Forall plain_extra (a_peers c) ->
  match parse_run parse_init (words c) with
  | Ok v => accepted c /\ behind c v
  | Err _ => ~ accepted c
  | Panic => False
  end.
Proof.
  intros W. unfold words, accepted, behind. rewrite run_app. pose proof (own_run (a_own c) [] parse_init nil_sensible init_in_own) as O.
  cbn [List.app] in O. destruct (parse_run parse_init (flat_map own_words (a_own c))) as [v| |]; [|tauto|assumption].
  destruct O as [So I]. destruct (a_peers c) as [|a l]; [cbn [flat_map Config.parse_run rev]; split; [split; [exact So|split; [constructor|congruence]]|exact I]|].
  cbn [flat_map]. unfold peer_words at 1. cbn [List.app Config.parse_run]. pose proof (first_peer _ _ I) as F.
  destruct (parse_arg v "peer") as [v1| |]; [|intros (_ & _ & H); apply F, H; discriminate|assumption].
  destruct F as [Nk I1]. rewrite run_app. pose proof (peer_body (a_own c) [] a v1 I1 (Forall_inv W)) as B.
  destruct (parse_run v1 (flat_map opt_words (a_opts a) ++ wg_words (a_wg a))) as [v2| |];
    [|intros (_ & H & _); apply B; exact (Forall_inv H)|assumption].
  destruct B as [Fi I2]. pose proof (peers_run (a_own c) l [] a v2 I2 (Forall_inv_tail W)) as P.
  destruct (parse_run v2 (flat_map peer_words l)) as [v3| |]; [|intros (_ & H & _); apply P; exact (Forall_inv_tail H)|assumption].
  destruct P as (Fl & done' & a' & E & I3). cbn [List.app] in E. rewrite E, rev_app_distr. cbn [rev List.app]. rewrite rev_involutive.
  split; [|exact I3]. split; [exact So|]. split; [rewrite <- E; constructor; assumption|auto].
Qed.

Lemma accepted_sensible c : Forall plain_extra (a_peers c) -> (accepted c <-> sensible resolve c /\ ~ Exists both (a_peers c)).
Proof.
  intros W. unfold accepted, sensible. rewrite <- Forall_Exists_neg. split.
  - intros (O & F & K). rewrite !Forall_forall in *.
    assert (X : forall a, In a (a_peers c) -> peer_sensible a /\ ~ both a).
    { intros a H. specialize (F a H). specialize (W a H). destruct F as (F1 & F2 & F3). unfold peer_sensible, both, at_most_once in *.
      split; [repeat split; auto; lia|]. intros [H1 H2]. destruct (endpoints (a_opts a)), (psks (a_opts a)); cbn [length] in F2; try congruence; lia. }
    split; [split; [exact O|split; [|exact K]]|]; intros a H; apply X, H.
  - intros ((O & F & K) & B). rewrite !Forall_forall in *. split; [exact O|]. split; [|exact K].
    intros a H. destruct (F a H) as (F1 & F2 & F3 & F4 & _). specialize (B a H). unfold fine_peer, both, at_most_once in *.
    split; [exact F1|]. split; [|exact F4]. destruct (endpoints (a_opts a)); [cbn [length]; lia|]. destruct (psks (a_opts a)); [cbn [length] in *; lia|].
    exfalso. apply B. split; discriminate.
Qed.

(** ** Any arguments *)

(** Where the parser is, and what it has read *)
Definition reading (pre : list string) (v : pvars) : Prop :=
  (exists c x, pre = words c ++ cut_words x /\ Forall plain_extra (a_peers c) /\ accepted c /\
     match x with
     | CWhole => behind c v
     | CWord k =>
         match rev (a_peers c) with
         | [] => exists v0, in_own (a_own c) v0 /\ In k own_keywords /\ parse_arg v0 k = Ok v
         | a :: done => exists v0, in_peer (a_own c) (rev done) (a_opts a) v0 /\ a_wg a = None /\ In k peer_keywords /\ parse_arg v0 k = Ok v
         end
     | CDevice d =>
         match rev (a_peers c) with
         | [] => False
         | a :: done => exists v0, in_peer (a_own c) (rev done) (a_opts a) v0 /\ a_wg a = None /\ parse_run v0 ["wireguard"; d] = Ok v
         end
     end).

Lemma rev_case {X} (l : list X) : l = [] \/ exists l' x, l = l' ++ [x].
Proof. destruct l as [|y l]; [auto|]. right. destruct (exists_last (l := y :: l)) as (l' & x & E); [discriminate|]. eauto. Qed.

Lemma words_own c o : a_peers c = [] -> words {| a_own := a_own c ++ [o]; a_peers := [] |} = words c ++ own_words o.
Proof. intros E. unfold words. rewrite E. cbn [a_own a_peers flat_map]. rewrite flat_map_app, !app_nil_r. cbn [flat_map]. now rewrite app_nil_r. Qed.
Lemma words_opt own done a o : a_wg a = None ->
  words {| a_own := own; a_peers := done ++ [{| a_opts := a_opts a ++ [o]; a_wg := None |}] |} =
  words {| a_own := own; a_peers := done ++ [a] |} ++ opt_words o.
Proof.
  intros E. unfold words. cbn [a_own a_peers]. rewrite !flat_map_app. cbn [flat_map]. unfold peer_words at 2 4. cbn [a_opts a_wg]. rewrite E. cbn [wg_words].
  rewrite flat_map_app. cbn [flat_map]. rewrite !app_nil_r, <- !app_assoc. reflexivity.
Qed.
Lemma words_peer own l : words {| a_own := own; a_peers := l ++ [{| a_opts := []; a_wg := None |}] |} = words {| a_own := own; a_peers := l |} ++ ["peer"].
Proof. unfold words. cbn [a_own a_peers]. rewrite flat_map_app. cbn. now rewrite <- app_assoc. Qed.
Lemma words_wg own done a d q : a_wg a = None ->
  words {| a_own := own; a_peers := done ++ [{| a_opts := a_opts a; a_wg := Some (d, q, []) |}] |} =
  words {| a_own := own; a_peers := done ++ [a] |} ++ ["wireguard"; d; q].
Proof.
  intros E. unfold words. cbn [a_own a_peers]. rewrite !flat_map_app. cbn [flat_map]. unfold peer_words at 2 4. cbn [a_opts a_wg]. rewrite E. cbn [wg_words].
  rewrite !app_nil_r, <- !app_assoc. reflexivity.
Qed.
Lemma words_extra own done a d q ex x : a_wg a = Some (d, q, ex) ->
  words {| a_own := own; a_peers := done ++ [{| a_opts := a_opts a; a_wg := Some (d, q, ex ++ [x]) |}] |} =
  words {| a_own := own; a_peers := done ++ [a] |} ++ [x].
Proof.
  intros E. unfold words. cbn [a_own a_peers]. rewrite !flat_map_app. cbn [flat_map]. unfold peer_words at 2 4. cbn [a_opts a_wg]. rewrite E. cbn [wg_words].
  rewrite !app_nil_r, <- !app_assoc. cbn [List.app]. rewrite <- !app_assoc. reflexivity.
Qed.


Lemma accepted_own own o l : own_sensible resolve (own ++ [o]) -> l = [] -> accepted {| a_own := own ++ [o]; a_peers := l |}.
Proof. intros H ->. split; [exact H|]. split; [constructor|]. cbn [a_peers]. congruence. Qed.
Lemma accepted_last own done a b : accepted {| a_own := own; a_peers := done ++ [a] |} -> fine_peer (a_opts b) ->
  accepted {| a_own := own; a_peers := done ++ [b] |}.
Proof.
  unfold accepted. cbn [a_own a_peers]. intros (O & F & K) Fb. split; [exact O|]. split.
  - apply Forall_app in F as [F _]. apply Forall_app. auto.
  - intros _. apply K. destruct done; discriminate.
Qed.
Lemma plain_last done a b : Forall plain_extra (done ++ [a]) -> plain_extra b -> Forall plain_extra (done ++ [b]).
Proof. intros F Fb. apply Forall_app in F as [F _]. apply Forall_app. auto. Qed.
Lemma behind_last own done a v : behind {| a_own := own; a_peers := done ++ [a] |} v <-> after_peer own done a v.
Proof. unfold behind. cbn [a_own a_peers]. rewrite rev_app_distr. cbn [rev List.app]. rewrite rev_involutive. reflexivity. Qed.
Lemma fine_last own done a : accepted {| a_own := own; a_peers := done ++ [a] |} -> fine_peer (a_opts a).
Proof. intros (_ & F & _). cbn [a_peers] in F. apply Forall_app in F as [_ F]. exact (Forall_inv F). Qed.

Ltac reads c x := exists c, x; split; [|split; [|split]].

Lemma reading_step pre v arg : reading pre v ->
  match parse_arg v arg with Ok v' => reading (pre ++ [arg]) v' | Err _ => True | Panic => False end.
Proof.
  intros (c & x & Pre & W & Ac & H). destruct c as [own peers]. destruct (rev_case peers) as [->|(done & a & ->)].
  - (* options of the server *)
    destruct x as [|k|d]; [|cbn [a_peers a_own rev] in H|destruct H].
    + unfold behind in H. cbn [a_peers a_own rev] in H. pose proof H as I. destruct H as (St & Np & _).
      rewrite own_word_eq by assumption. cbn [cut_words] in Pre. rewrite app_nil_r in Pre.
      assert (Kw : In arg own_keywords -> forall v', parse_arg v arg = Ok v' -> reading (pre ++ [arg]) v').
      { intros K v' E. exists {| a_own := own; a_peers := [] |}, (CWord arg). split; [rewrite Pre; reflexivity|]. split; [assumption|]. split; [assumption|].
        cbn [a_peers a_own rev]. eauto. }
      rewrite own_word_eq in Kw by assumption. unfold own_word in *.
      destruct (String.eqb_spec arg "public-key") as [->|N1]; [apply Kw; [cbn; auto|reflexivity]|].
      destruct (String.eqb_spec arg "secret-key") as [->|N2]; [apply Kw; [cbn; auto|reflexivity]|].
      destruct (String.eqb_spec arg "private-key") as [->|N3]; [apply Kw; [cbn; auto|reflexivity]|].
      destruct (String.eqb_spec arg "listen") as [->|N4]; [apply Kw; [cbn; auto|reflexivity]|]. clear Kw.
      destruct (String.eqb_spec arg "verbose") as [->|N5].
      { pose proof (own_step_ok own OVerbose v (proj1 Ac) I) as S0. unfold own_step in S0. cbn [own_words Config.parse_run] in S0.
        rewrite own_word_eq in S0 by assumption. unfold own_word in S0. cbn [String.eqb Ascii.eqb Bool.eqb] in S0. destruct S0 as [S1 S2].
        reads {| a_own := own ++ [OVerbose]; a_peers := [] |} CWhole; [|constructor|now apply accepted_own|exact S2].
        rewrite Pre. cbn [cut_words]. rewrite app_nil_r. symmetry. exact (words_own {| a_own := own; a_peers := [] |} OVerbose eq_refl). }
      destruct (String.eqb_spec arg "peer") as [->|N6]; [|exact Logic.I].
      pose proof (first_peer own v I) as F. rewrite own_word_eq in F by assumption. unfold own_word in F. cbn [String.eqb Ascii.eqb Bool.eqb] in F.
      destruct (negb (already v OwnPublicKey)); [exact Logic.I|]. destruct (negb (already v OwnSecretKey)); [exact Logic.I|]. destruct F as [Nk I1].
      reads {| a_own := own; a_peers := [] ++ [{| a_opts := []; a_wg := None |}] |} CWhole.
      * rewrite words_peer, Pre. cbn [cut_words]. now rewrite app_nil_r.
      * repeat constructor.
      * split; [exact (proj1 Ac)|]. split; [repeat constructor|intros _; exact Nk].
      * apply behind_last. exact I1.
    + destruct H as (v0 & I & K & E).
      assert (O : exists o, own_words o = [k; arg]).
      { destruct K as [<-|[<-|[<-|[<-|[]]]]]; [exists (OPublic arg)|exists (OSecret arg)|exists (OPrivate arg)|exists (OListen arg)]; reflexivity. }
      destruct O as (o & Eo). pose proof (own_step_ok own o v0 (proj1 Ac) I) as S0. unfold own_step in S0. rewrite Eo in S0. cbn [Config.parse_run] in S0.
      rewrite E in S0. destruct (parse_arg v arg) as [v'| |]; [|exact Logic.I|assumption]. destruct S0 as [S1 S2].
      reads {| a_own := own ++ [o]; a_peers := [] |} CWhole; [|constructor|now apply accepted_own|exact S2].
      rewrite Pre. cbn [cut_words]. rewrite app_nil_r, <- app_assoc. change ([k] ++ [arg]) with [k; arg]. rewrite <- Eo. symmetry.
      exact (words_own {| a_own := own; a_peers := [] |} o eq_refl).
  - (* options of a peer *)
    destruct x as [|k|d].
    + apply behind_last in H. cbn [cut_words] in Pre. rewrite app_nil_r in Pre.
      assert (Nx : arg = "peer" -> match parse_arg v arg with Ok v' => reading (pre ++ [arg]) v' | Err _ => True | Panic => False end).
      { intros ->. destruct (next_peer _ _ _ _ H) as (v' & -> & I').
        reads {| a_own := own; a_peers := (done ++ [a]) ++ [{| a_opts := []; a_wg := None |}] |} CWhole.
        - rewrite words_peer, Pre. cbn [cut_words]. now rewrite app_nil_r.
        - apply Forall_app. split; [exact W|repeat constructor].
        - destruct Ac as (O & F & K). split; [exact O|]. split; [apply Forall_app; split; [exact F|repeat constructor]|].
          intros _. apply K. cbn [a_peers]. destruct done; discriminate.
        - apply behind_last. exact I'. }
      destruct (String.eqb_spec arg "peer") as [->|Na]; [exact (Nx eq_refl)|]. clear Nx. unfold after_peer in H.
      destruct (a_wg a) as [[[d q] ex]|] eqn:Ew.
      * destruct (extra_arg _ _ _ _ _ _ _ arg H Na) as (v' & -> & I').
        reads {| a_own := own; a_peers := done ++ [{| a_opts := a_opts a; a_wg := Some (d, q, ex ++ [arg]) |}] |} CWhole.
        -- rewrite words_extra by assumption. rewrite Pre. cbn [cut_words]. now rewrite app_nil_r.
        -- cbn [a_peers] in *. apply (plain_last _ a); [exact W|]. apply Forall_app in W as [_ W]. apply Forall_inv in W. unfold plain_extra in *.
           rewrite Ew in W. cbn [a_wg]. rewrite in_app_iff. intros [X|[X|[]]]; [contradiction|congruence].
        -- apply (accepted_last _ _ a); [exact Ac|]. exact (fine_last _ _ _ Ac).
        -- apply behind_last. exact I'.
      * pose proof H as I. destruct H as (St & (p & Ep & _) & _).
        assert (Kw : In arg peer_keywords -> forall v', parse_arg v arg = Ok v' -> reading (pre ++ [arg]) v').
        { intros K v' E. exists {| a_own := own; a_peers := done ++ [a] |}, (CWord arg). split; [rewrite Pre; reflexivity|]. split; [assumption|]. split; [assumption|].
          cbn [a_peers a_own]. rewrite rev_app_distr. cbn [rev List.app]. rewrite rev_involutive. eauto. }
        rewrite (peer_word_eq v _ p) in * by assumption. unfold peer_word in *. destruct (String.eqb_spec arg "peer"); [contradiction|].
        destruct (String.eqb_spec arg "public-key") as [->|N1]; [apply Kw; [cbn; auto|reflexivity]|].
        destruct (String.eqb_spec arg "endpoint") as [->|N2]; [apply Kw; [cbn; auto|reflexivity]|].
        destruct (String.eqb_spec arg "preshared-key") as [->|N3]; [apply Kw; [cbn; auto|reflexivity]|].
        destruct (String.eqb_spec arg "outfile") as [->|N4]; [apply Kw; [cbn; auto|reflexivity]|].
        destruct (String.eqb_spec arg "wireguard") as [->|N5]; [apply Kw; [cbn; auto 10|reflexivity]|]. exact Logic.I.
    + cbn [a_peers a_own] in H. rewrite rev_app_distr in H. cbn [rev List.app] in H. rewrite rev_involutive in H.
      destruct H as (v0 & I & Ew & K & E).
      assert (O : k = "wireguard" \/ exists o, opt_words o = [k; arg]).
      { destruct K as [<-|[<-|[<-|[<-|[<-|[]]]]]]; [right; exists (PPublic arg)|right; exists (PEndpoint arg)|right; exists (PPreshared arg)|right; exists (POutfile arg)|left]; reflexivity. }
      destruct O as [->|(o & Eo)].
      * destruct (wg_start _ _ _ _ arg I) as (v' & R & _). cbn [Config.parse_run] in R. rewrite E in R.
        destruct (parse_arg v arg) as [v''| |] eqn:Ev; [|discriminate R..].
        exists {| a_own := own; a_peers := done ++ [a] |}, (CDevice arg).
        split; [rewrite Pre; cbn [cut_words]; rewrite <- app_assoc; reflexivity|]. split; [assumption|]. split; [assumption|].
        cbn [a_peers a_own]. rewrite rev_app_distr. cbn [rev List.app]. rewrite rev_involutive. exists v0. split; [exact I|]. split; [exact Ew|].
        cbn [Config.parse_run]. rewrite E, Ev. reflexivity.
      * pose proof (peer_step_ok own done (a_opts a) o v0 (fine_last _ _ _ Ac) I) as S0. rewrite Eo in S0. cbn [Config.parse_run] in S0.
        rewrite E in S0. destruct (parse_arg v arg) as [v'| |]; [|exact Logic.I|assumption]. destruct S0 as [S1 S2].
        reads {| a_own := own; a_peers := done ++ [{| a_opts := a_opts a ++ [o]; a_wg := None |}] |} CWhole.
        -- rewrite words_opt, Eo by assumption. rewrite Pre. cbn [cut_words]. rewrite app_nil_r, <- app_assoc. reflexivity.
        -- apply (plain_last _ a); [exact W|exact Logic.I].
        -- apply (accepted_last _ _ a); [exact Ac|exact S1].
        -- apply behind_last. exact S2.
    + cbn [a_peers a_own] in H. rewrite rev_app_distr in H. cbn [rev List.app] in H. rewrite rev_involutive in H.
      destruct H as (v0 & I & Ew & E). destruct (wg_peer_arg _ _ _ _ d arg I) as (v' & R & I').
      change ["wireguard"; d; arg] with (["wireguard"; d] ++ [arg]) in R. rewrite run_app, E in R. cbn [Config.parse_run] in R.
      destruct (parse_arg v arg) as [v''| |]; [|discriminate R..]. assert (v'' = v') by congruence. subst.
      reads {| a_own := own; a_peers := done ++ [{| a_opts := a_opts a; a_wg := Some (d, arg, []) |}] |} CWhole.
      * rewrite words_wg by assumption. cbn [cut_words]. rewrite app_nil_r, <- app_assoc. reflexivity.
      * apply (plain_last _ a); [exact W|]. intros [].
      * apply (accepted_last _ _ a); [exact Ac|]. exact (fine_last _ _ _ Ac).
      * apply behind_last. exact I'.
Qed.

Lemma reading_run args : forall pre v, reading pre v ->
  match parse_run v args with Ok v' => reading (pre ++ args) v' | Err _ => True | Panic => False end.
Proof.
  induction args as [|x args IH]; intros pre v H; [cbn; now rewrite app_nil_r|].
  cbn [Config.parse_run]. pose proof (reading_step pre v x H) as St. destruct (parse_arg v x) as [v'| |]; [|exact Logic.I|assumption].
  replace (pre ++ x :: args) with ((pre ++ [x]) ++ args) by (rewrite <- app_assoc; reflexivity). apply IH, St.
Qed.
Lemma reading_init : reading [] parse_init.
Proof.
  exists {| a_own := []; a_peers := [] |}, CWhole. split; [reflexivity|]. split; [constructor|]. split; [|exact init_in_own].
  split; [exact nil_sensible|]. split; [constructor|]. cbn. congruence.
Qed.

(** A word that wants a value changes nothing the configuration is made of *)
Lemma own_word_end k v v' : In k own_keywords -> v_peer v = None -> v_state v = Own -> parse_arg v k = Ok v' -> parse_end v' = parse_end v.
Proof.
  intros K P St E. rewrite own_word_eq in E by assumption. unfold own_word in E.
  destruct K as [<-|[<-|[<-|[<-|[]]]]]; cbn [String.eqb Ascii.eqb Bool.eqb] in E; (assert (X : v' = vgo (v_state v') v) by (destruct v, v'; unfold vgo in *; cbn in *; congruence); rewrite X; reflexivity).
Qed.
Lemma peer_word_end k v v' p : In k peer_keywords -> v_peer v = Some p -> v_state v = Peer -> parse_arg v k = Ok v' -> parse_end v' = parse_end v.
Proof.
  intros K P St E. rewrite (peer_word_eq _ _ p) in E by assumption. unfold peer_word in E.
  destruct K as [<-|[<-|[<-|[<-|[<-|[]]]]]]; cbn [String.eqb Ascii.eqb Bool.eqb] in E; (assert (X : v' = vgo (v_state v') v) by (destruct v, v'; unfold vgo in *; cbn in *; congruence); rewrite X; reflexivity).
Qed.
End Parser.

(** The configuration of a command line that is cut off: what stands before the cut, with the WireGuard device if that is there *)
Definition says_cut {A} (resolve : string -> option (list A)) (l : cmdline) (x : cut) (c : config A) : Prop :=
  exists c0, says resolve l c0 /\
    match x with
    | CDevice d => exists done p, c_peers c0 = done ++ [p] /\
        c = with_peers c0 (done ++ [with_wg p (Some {| wg_device := d; wg_peer := ""; wg_extra := [] |})])
    | _ => c = c0
    end.

(** * C42 *)

(** C42: every list of arguments gives a configuration or an error *)
Theorem C42_total : forall {A} (resolve : string -> option (list A)) args, parse_args resolve args <> Panic.
Proof.
  intros A resolve args. unfold parse_args. pose proof (reading_run resolve args [] parse_init (reading_init resolve)) as H.
  destruct (parse_run resolve parse_init args); [discriminate..|contradiction].
Qed.
Print Assumptions C42_total.

(** C42: a sensible command line is understood, if no peer is given both an endpoint and a preshared key *)
Theorem C42_understood_partial : forall {A} (resolve : string -> option (list A)) c,
  sensible resolve c -> ~ Exists both (a_peers c) ->
  exists cfg, parse_args resolve (words c) = Ok cfg /\ says resolve c cfg.
Proof.
  intros A resolve c Se Nb. assert (W : Forall plain_extra (a_peers c)).
  { destruct Se as (_ & F & _). eapply Forall_impl; [|exact F]. intros a (_ & _ & _ & _ & H). exact H. }
  pose proof (words_run resolve c W) as H. unfold parse_args. pose proof (accepted_sensible resolve c W) as Eq.
  destruct (parse_run resolve parse_init (words c)) as [v| |]; [|exfalso; tauto|contradiction].
  eexists. split; [reflexivity|]. apply behind_says, H.
Qed.
Print Assumptions C42_understood_partial.

(** C42 fails: giving both is refused, always *)
Theorem C42_endpoint_psk_refuted : forall {A} (resolve : string -> option (list A)) c,
  sensible resolve c -> Exists both (a_peers c) -> parse_args resolve (words c) = Err tt.
Proof.
  intros A resolve c Se Nb. assert (W : Forall plain_extra (a_peers c)).
  { destruct Se as (_ & F & _). eapply Forall_impl; [|exact F]. intros a (_ & _ & _ & _ & H). exact H. }
  pose proof (words_run resolve c W) as H. unfold parse_args. pose proof (accepted_sensible resolve c W) as Eq.
  destruct (parse_run resolve parse_init (words c)) as [v|[]|]; [exfalso; tauto|reflexivity|contradiction].
Qed.
Print Assumptions C42_endpoint_psk_refuted.

(** C42: nothing else is accepted but command lines that make sense, or the beginning of one that is cut off before a value; and the
    configuration, in particular the public key of each peer, is the one they ask for *)
Theorem C42_nothing_else : forall {A} (resolve : string -> option (list A)) args cfg,
  parse_args resolve args = Ok cfg ->
  exists c x, args = words c ++ cut_words x /\ sensible resolve c /\ ~ Exists both (a_peers c) /\ cut_fits c x /\ says_cut resolve c x cfg.
Proof.
  intros A resolve args cfg H. unfold parse_args in H. pose proof (reading_run resolve args [] parse_init (reading_init resolve)) as R.
  destruct (parse_run resolve parse_init args) as [v| |]; [|discriminate H..]. assert (Ec : cfg = parse_end v) by congruence. subst cfg. clear H.
  cbn [List.app] in R. destruct R as (c & x & Ea & W & Ac & H). exists c, x. split; [exact Ea|].
  pose proof (proj1 (accepted_sensible resolve c W) Ac) as [Se Nb]. split; [exact Se|]. split; [exact Nb|]. clear Se Nb.
  destruct x as [|k|d].
  - split; [exact Logic.I|]. exists (parse_end v). split; [|reflexivity]. now apply behind_says.
  - unfold cut_fits. destruct (rev (a_peers c)) as [|a done] eqn:E.
    + destruct H as (v0 & I & K & E0). split; [exact K|]. exists (parse_end v). split; [|reflexivity].
      pose proof I as (St & Np & _). rewrite (own_word_end resolve k v0 v) by assumption. apply behind_says. unfold behind. rewrite E. exact I.
    + destruct H as (v0 & I & Ew & K & E0). split; [auto|]. exists (parse_end v). split; [|reflexivity].
      pose proof I as (St & (p & Ep & _) & _). rewrite (peer_word_end resolve k v0 v p) by assumption. apply behind_says. unfold behind. rewrite E.
      unfold after_peer. rewrite Ew. exact I.
  - unfold cut_fits. destruct (rev (a_peers c)) as [|a done] eqn:E; [contradiction|]. destruct H as (v0 & I & Ew & R). split; [exact Ew|].
    destruct (wg_start resolve _ _ _ _ d I) as (v' & R' & _ & (p & p0 & Ep & Ep0 & Hp) & _ & Ec). rewrite R in R'. assert (v' = v) by congruence. subst v'.
    exists (parse_end v0). split; [apply behind_says; unfold behind; rewrite E; unfold after_peer; rewrite Ew; exact I|].
    exists (c_peers (v_cfg v0)), p0. unfold parse_end. rewrite Ep, Ep0, Ec, Hp. split; reflexivity.
Qed.
Print Assumptions C42_nothing_else.

(** C42 fails: the beginning of a command line that is cut off before a value is accepted like what stands before *)
Theorem C42_cut_off_refuted : forall {A} (resolve : string -> option (list A)) c done a k,
  sensible resolve c -> ~ Exists both (a_peers c) -> a_peers c = done ++ [a] -> a_wg a = None -> In k peer_keywords ->
  parse_args resolve (words c ++ [k]) = parse_args resolve (words c).
Proof.
  intros A resolve c done a k Se Nb El Ew K. assert (W : Forall plain_extra (a_peers c)).
  { destruct Se as (_ & F & _). eapply Forall_impl; [|exact F]. intros b (_ & _ & _ & _ & H). exact H. }
  pose proof (words_run resolve c W) as H. unfold parse_args. pose proof (accepted_sensible resolve c W) as Eq. rewrite run_app.
  destruct (parse_run resolve parse_init (words c)) as [v| |]; [|exfalso; tauto|contradiction].
  destruct H as [_ B]. unfold behind in B. rewrite El, rev_app_distr in B. cbn [rev List.app] in B. unfold after_peer in B. rewrite Ew in B.
  destruct B as (St & (p & Ep & _) & _). cbn [Config.parse_run].
  destruct (parse_arg resolve v k) as [v'| |] eqn:E.
  - now rewrite (peer_word_end resolve k v v' p).
  - exfalso. rewrite (peer_word_eq resolve v k p) in E by assumption. destruct K as [<-|[<-|[<-|[<-|[<-|[]]]]]]; discriminate E.
  - exfalso. rewrite (peer_word_eq resolve v k p) in E by assumption. destruct K as [<-|[<-|[<-|[<-|[<-|[]]]]]]; discriminate E.
Qed.
Print Assumptions C42_cut_off_refuted.

(** C42 fails: a peer without a public key is accepted; its public key is then the empty path *)
Theorem C42_no_public_key_refuted : forall {A} (resolve : string -> option (list A)) c done a,
  sensible resolve c -> ~ Exists both (a_peers c) -> a_peers c = done ++ [a] -> ppublics (a_opts a) = [] ->
  exists cfg done' p, parse_args resolve (words c) = Ok cfg /\ c_peers cfg = done' ++ [p] /\ p_public p = "".
Proof.
  intros A resolve c done a Se Nb El Np. destruct (C42_understood_partial resolve c Se Nb) as (cfg & E & (_ & F)).
  rewrite El in F. apply Forall2_app_inv_l in F as (d' & l & _ & F & Ep). inversion F as [|? p ? l' Sy F']; subst. inversion F'; subst.
  exists cfg, d', p. split; [exact E|]. split; [exact Ep|]. destruct Sy as (-> & _). now rewrite Np.
Qed.
Print Assumptions C42_no_public_key_refuted.

(** * Starting *)

Section Start.
Context {A : Type}.
Variable resolve : string -> option (list A).
Variable junk : bytes -> bytes -> option bytes.

Lemma start_peers_each rand f l : forall i r, start_peers junk rand f i l = Some r ->
  Forall2 (fun p s => exists k, start_peer junk (rand k) f p = Some s) l r.
Proof.
  induction l as [|p l IH]; intros i r H; cbn [start_peers] in H; [assert (r = []) by congruence; subst; constructor|].
  destruct (start_peer junk (rand i) f p) as [s|] eqn:E; [|discriminate]. destruct (start_peers junk rand f (S i) l) as [r'|] eqn:E'; [|discriminate].
  assert (r = s :: r') by congruence. subst. constructor; eauto.
Qed.
Lemma start_peer_fields rnd f p s : start_peer junk rnd f p = Some s ->
  load SPK_LEN (p_public p) f = Some (s_pk s) /\ s_endpoint s = p_endpoint p /\ s_out s = p_key_out p /\
  match p_psk p with None => s_psk s = None | Some q => s_psk s = load_b64 junk MAX_PSK_SIZE rnd q f /\ s_psk s <> None end /\
  match p_wg p with
  | None => s_wg s = None
  | Some w => exists id, b64_decode junk (list_byte_of_string (wg_peer w)) (zeros 32) = Some id /\ s_wg s = Some (wg_device w, id, wg_extra w)
  end.
Proof.
  unfold start_peer. intros H.
  destruct (p_wg p) as [w|]; [destruct (b64_decode junk (list_byte_of_string (wg_peer w)) (zeros 32)) as [id|] eqn:Ei; [|discriminate H]|].
  all: destruct (p_psk p) as [q|]; [destruct (load_b64 junk MAX_PSK_SIZE rnd q f) as [k|] eqn:Ek; [|discriminate H]|].
  all: destruct (load SPK_LEN (p_public p) f) as [pk|] eqn:El; [|discriminate H]; destruct (osk_ok p); [|discriminate H].
  all: match type of H with Some ?x = Some ?y => assert (Es : x = y) by congruence end; rewrite <- Es; cbn [s_pk s_endpoint s_out s_psk s_wg].
  all: repeat split; eauto; discriminate.
Qed.
End Start.

(** A peer of a running server is the peer that was asked for: it has the public key in the one file given, the endpoint and the
    key file given, a preshared key if one was given, and the WireGuard device and parameters given *)
Definition peer_runs (f : fs) (a : peer_args) (s : srv_peer) : Prop :=
  (exists k, ppublics (a_opts a) = [k] /\ contents f k = Some (s_pk s)) /\
  s_endpoint s = hd_error (endpoints (a_opts a)) /\ s_out s = hd_error (outfiles (a_opts a)) /\
  (s_psk s = None <-> psks (a_opts a) = []) /\
  match a_wg a with None => s_wg s = None | Some (d, _, extra) => exists id, s_wg s = Some (d, id, extra) end.

(** C42: a server runs only with the keys and the peers that were asked for, each with its public key *)
Theorem C42_runs_as_asked : forall {A} (resolve : string -> option (list A)) junk toml to_toml example home umask api api_args gen_sk gen_pk rand w1 w2 args file f f' s,
  run resolve junk toml to_toml example home umask api api_args gen_sk gen_pk rand w1 w2 (Exchange args file) f = (f', Running s) ->
  is_file f' "" = false ->
  exists c x, args = words c ++ cut_words x /\ sensible resolve c /\ (x = CWhole \/ exists k, x = CWord k) /\
    (exists pk sk dpk dsk, publics (a_own c) = [pk] /\ secrets (a_own c) = [sk] /\ contents f' pk = Some dpk /\ contents f' sk = Some dsk /\ s_keys s = Some (dsk, dpk)) /\
    (exists ls, Forall2 (fun a l => resolve a = Some l) (listens (a_own c)) ls /\ s_listen s = concat ls) /\
    Forall2 (peer_runs f') (a_peers c) (s_peers s).
Proof.
  intros A resolve junk toml to_toml example home umask api api_args gen_sk gen_pk rand w1 w2 args file f f' s H Empty. cbn [run] in H.
  destruct (parse_args resolve args) as [cfg| |] eqn:P; [|discriminate H..].
  assert (X : exists cfg', serve resolve junk api api_args rand cfg' f' = Running s /\
    c_keypair cfg' = c_keypair cfg /\ c_listen cfg' = c_listen cfg /\ c_peers cfg' = c_peers cfg).
  { destruct file as [p|].
    - destruct (write_file umask M_DEFAULT w1 p (to_toml cfg) f) as [f1 ok]. destruct ok; [|discriminate H].
      assert (f1 = f') by congruence. subst f1. exists (with_path cfg p). split; [congruence|auto].
    - assert (f = f') by congruence. subst f'. exists cfg. split; [congruence|auto]. }
  clear H. destruct X as (cfg' & Sv & Ek & El & Ep). revert Sv. unfold serve.
  destruct (validate resolve f' cfg') eqn:V; [|discriminate].
  set (cfg2 := if api then with_api cfg' (c_api cfg' + api_args) else cfg').
  assert (E2 : c_keypair cfg2 = c_keypair cfg /\ c_listen cfg2 = c_listen cfg /\ c_peers cfg2 = c_peers cfg) by (unfold cfg2; destruct api; cbn; auto).
  clearbody cfg2. destruct (useful api cfg2); [|discriminate]. destruct (start junk rand f' cfg2) as [s'|] eqn:St; [|discriminate].
  intros Hs. assert (s' = s) by congruence. subst s'. clear Hs. unfold start in St. destruct E2 as (E2k & E2l & E2p).
  rewrite E2k, E2p, E2l in St.
  destruct (C42_nothing_else resolve args cfg P) as (c & x & Ea & Se & Nb & Fit & (c0 & (So & Sp) & Cut)). clear P.
  assert (K0 : c_keypair cfg = c_keypair c0 /\ c_listen cfg = c_listen c0).
  { destruct x; [subst; auto|subst; auto|]. destruct Cut as (dn & q & _ & ->). auto. }
  destruct K0 as [K0 L0]. rewrite K0, L0 in St. destruct So as (Kp & (ls & Fl & Ls) & _). rewrite Kp in St. cbn [k_secret k_public] in St.
  destruct (load SSK_LEN (hd "" (secrets (a_own c))) f') as [dsk|] eqn:Ls1; [|discriminate].
  destruct (load SPK_LEN (hd "" (publics (a_own c))) f') as [dpk|] eqn:Lp1; [|discriminate].
  destruct (start_peers junk rand f' 0 (c_peers cfg)) as [sps|] eqn:Sps; [|discriminate].
  assert (Es : s = {| s_keys := Some (dsk, dpk); s_listen := c_listen c0; s_peers := sps |}) by congruence. subst s. clear St.
  cbn [s_keys s_listen s_peers]. apply start_peers_each in Sps.
  assert (Ld : forall n l d, at_most_once l -> load n (hd "" l) f' = Some d -> exists k, l = [k] /\ contents f' k = Some d).
  { intros n l d O L. apply C68_exact in L as [(m & L) _]. destruct l as [|k [|? ?]].
    - cbn [hd] in L. unfold is_file in Empty. rewrite L in Empty. discriminate.
    - exists k. cbn [hd] in L. unfold contents. rewrite L. auto.
    - unfold at_most_once in O. cbn [length] in O. lia. }
  assert (Cx : c_peers cfg = c_peers c0 /\ (x = CWhole \/ exists k, x = CWord k)).
  { destruct x as [|k|d]; [subst; eauto|subst; eauto|]. exfalso. destruct Cut as (dn & q & Eq & ->). cbn [c_peers with_peers] in Sps.
    apply Forall2_app_inv_l in Sps as (r1 & r2 & _ & F2 & _). inversion F2 as [|? sq ? ? (k & Sq) _]. apply start_peer_fields in Sq as (_ & _ & _ & _ & W).
    cbn [p_wg with_wg] in W. destruct W as (id & W & _). discriminate W. }
  destruct Cx as [Cp Cx]. exists c, x. split; [exact Ea|]. split; [exact Se|]. split; [exact Cx|].
  destruct Se as ((O1 & O2 & _) & Ps & _).
  split.
  { destruct (Ld _ _ _ O1 Lp1) as (pk & E1 & C1). destruct (Ld _ _ _ O2 Ls1) as (sk & E3 & C3). exists pk, sk, dpk, dsk. auto. }
  split; [eauto|].
  rewrite Cp in Sps. clear - Sps Sp Ps Ld. revert sps Sps. remember (a_peers c) as l eqn:E0. clear E0 c. revert Ps.
  induction Sp as [|a p l lp Sy Sp IH]; intros Ps sps Sps; inversion Sps as [|? sp ? sps' (k & St) Sps' Ea Eb]; subst; constructor; [|apply IH; [exact (Forall_inv_tail Ps)|assumption]].
  apply start_peer_fields in St as (F1 & F2 & F3 & F4 & F5). destruct Sy as (Y1 & Y2 & Y3 & Y4 & Y5 & _). apply Forall_inv in Ps. destruct Ps as (Q1 & Q2 & Q3 & Q4 & _).
  rewrite Y1 in F1. rewrite Y3 in F4. rewrite Y5 in F5. unfold peer_runs. rewrite F2, F3.
  split; [exact (Ld _ _ _ Q1 F1)|]. split; [exact Y2|]. split; [exact Y4|]. split.
  - destruct (psks (a_opts a)) as [|q r]; cbn [hd_error] in F4; [tauto|]. destruct F4 as [_ F4]. split; [contradiction|discriminate].
  - destruct (a_wg a) as [[[d q] ex]|]; [|exact F5]. destruct F5 as (id & _ & F5). exists id. exact F5.
Qed.
Print Assumptions C42_runs_as_asked.

(** * C43 *)

Section Keys.
Context {A : Type}.
Variable resolve : string -> option (list A).
Variables (junk : bytes -> bytes -> option bytes) (toml : bytes -> option (config A)) (to_toml : config A -> bytes) (example : bytes) (home : path)
  (umask : N) (api : bool) (api_args : nat) (gen_sk gen_pk : bytes) (rand : nat -> bytes).
Notation run := (run resolve junk toml to_toml example home umask api api_args gen_sk gen_pk rand).
Notation save_keypair := (@save_keypair A umask gen_sk gen_pk).

(** The files that gen-keys is asked to write: named on the command line, or in the configuration file *)
Definition asked (file public secret : option path) (f : fs) (pk sk : path) : Prop :=
  match file with
  | Some c => exists cfg k, load_config toml home c f = Some cfg /\ c_keypair cfg = Some k /\ pk = k_public k /\ sk = k_secret k
  | None => public = Some pk /\ secret = Some sk
  end.

Lemma gen_keys_eq w1 w2 file public secret force f :
  (exists pk sk, asked file public secret f pk sk /\
     run w1 w2 (GenKeys file public secret force) f =
       if negb force && (is_file f pk || is_file f sk) then (f, Failed) else save_keypair w1 w2 sk pk f) \/
  ((forall pk sk, ~ asked file public secret f pk sk) /\ run w1 w2 (GenKeys file public secret force) f = (f, Failed)).
Proof.
  cbn [Config.run]. unfold asked. destruct file as [c|].
  - destruct (load_config toml home c f) as [cfg|]; [|right; split; [intros pk sk (? & ? & ? & _); discriminate|reflexivity]].
    destruct (c_keypair cfg) as [k|] eqn:E; [|right; split; [intros pk sk (? & ? & ? & ? & _); congruence|reflexivity]].
    left. exists (k_public k), (k_secret k). split; [eauto 6|reflexivity].
  - destruct public as [pk|], secret as [sk|]; [left; eauto|right; split; [intros ? ? []; discriminate|reflexivity]..].
Qed.

Lemma save_other w1 w2 sk pk f q : q <> sk -> q <> pk -> fst (save_keypair w1 w2 sk pk f) q = f q.
Proof.
  intros N1 N2. unfold Config.save_keypair, store_secret, store_public. pose proof (write_other umask M_SECRET w1 sk gen_sk f q N1) as H1.
  destruct (write_file umask M_SECRET w1 sk gen_sk f) as [f1 ok1]. cbn [fst] in H1. destruct ok1; [|exact H1].
  pose proof (write_other umask M_DEFAULT w2 pk gen_pk f1 q N2) as H2. destruct (write_file umask M_DEFAULT w2 pk gen_pk f1) as [f2 ok2].
  cbn [fst] in *. congruence.
Qed.

(** C43: gen-keys without --force changes no file that exists, wherever it is interrupted *)
Theorem C43_never_overwrites : forall w1 w2 file public secret f p,
  is_file f p = true -> fst (run w1 w2 (GenKeys file public secret false) f) p = f p.
Proof.
  intros w1 w2 file public secret f p F. destruct (gen_keys_eq w1 w2 file public secret false f) as [(pk & sk & _ & ->)|[_ ->]]; [|reflexivity].
  cbn [negb andb]. destruct (is_file f pk) eqn:E1; [reflexivity|]. destruct (is_file f sk) eqn:E2; [reflexivity|]. cbn [orb].
  apply save_other; intros ->; congruence.
Qed.

(** C43: it fails and changes nothing if one of the files exists *)
Theorem C43_refuses : forall w1 w2 file public secret f pk sk,
  asked file public secret f pk sk -> is_file f pk = true \/ is_file f sk = true ->
  run w1 w2 (GenKeys file public secret false) f = (f, Failed).
Proof.
  intros w1 w2 file public secret f pk sk As Ex. destruct (gen_keys_eq w1 w2 file public secret false f) as [(pk' & sk' & As' & ->)|[N _]]; [|destruct (N _ _ As)].
  assert (pk' = pk /\ sk' = sk) as [-> ->].
  { unfold asked in *. destruct file; [destruct As as (? & ? & ? & ? & ? & ?), As' as (? & ? & ? & ? & ? & ?)|destruct As, As']; split; congruence. }
  cbn [negb andb]. destruct Ex as [-> | ->]; [reflexivity|]. now rewrite orb_true_r.
Qed.

(** It reports success only if both keys are there, each in its file *)
Lemma save_done w1 w2 sk pk f : sk <> pk -> (is_file f sk = true \/ f sk = None) -> (is_file f pk = true \/ f pk = None) ->
  snd (save_keypair w1 w2 sk pk f) = Done ->
  contents (fst (save_keypair w1 w2 sk pk f)) sk = Some gen_sk /\ contents (fst (save_keypair w1 w2 sk pk f)) pk = Some gen_pk.
Proof.
  intros Ne Ks Kp D. unfold Config.save_keypair, store_secret, store_public in *.
  destruct (write_file umask M_SECRET w1 sk gen_sk f) as [f1 ok1] eqn:E1. destruct ok1; [|discriminate D].
  destruct (write_file umask M_DEFAULT w2 pk gen_pk f1) as [f2 ok2] eqn:E2. destruct ok2; [|discriminate D]. cbn [fst].
  assert (X1 : snd (write_file umask M_SECRET w1 sk gen_sk f) = true) by (rewrite E1; reflexivity).
  assert (X2 : snd (write_file umask M_DEFAULT w2 pk gen_pk f1) = true) by (rewrite E2; reflexivity).
  pose proof (write_other umask M_SECRET w1 sk gen_sk f pk ltac:(congruence)) as O1. rewrite E1 in O1. cbn [fst] in O1.
  pose proof (write_other umask M_DEFAULT w2 pk gen_pk f1 sk Ne) as O2. rewrite E2 in O2. cbn [fst] in O2.
  assert (C1 : contents f1 sk = Some gen_sk).
  { apply write_ok in X1 as [-> X1]. unfold is_file in Ks. destruct (f sk) as [[m c|m|m]|]; try (destruct Ks; discriminate).
    all: rewrite X1 in E1; assert (Ef : f1 = fst (f1, true)) by reflexivity; rewrite <- E1 in Ef; rewrite Ef; unfold contents; cbn [fst]; now rewrite fset_same. }
  split; [unfold contents; rewrite O2; exact C1|].
  apply write_ok in X2 as [-> X2]. rewrite O1 in X2. unfold is_file in Kp. destruct (f pk) as [[m c|m|m]|]; try (destruct Kp; discriminate).
  all: rewrite X2 in E2; assert (Ef : f2 = fst (f2, true)) by reflexivity; rewrite <- E2 in Ef; rewrite Ef; unfold contents; cbn [fst]; now rewrite fset_same.
Qed.

(** C43: if it succeeds both files have been written, with the keys of one pair *)
Theorem C43_written_partial : forall w1 w2 file public secret force f pk sk,
  asked file public secret f pk sk -> pk <> sk -> (is_file f sk = true \/ f sk = None) -> (is_file f pk = true \/ f pk = None) ->
  snd (run w1 w2 (GenKeys file public secret force) f) = Done ->
  contents (fst (run w1 w2 (GenKeys file public secret force) f)) sk = Some gen_sk /\
  contents (fst (run w1 w2 (GenKeys file public secret force) f)) pk = Some gen_pk.
Proof.
  intros w1 w2 file public secret force f pk sk As Ne Ks Kp.
  destruct (gen_keys_eq w1 w2 file public secret force f) as [(pk' & sk' & As' & ->)|[N _]]; [|destruct (N _ _ As)].
  assert (pk' = pk /\ sk' = sk) as [-> ->].
  { unfold asked in *. destruct file; [destruct As as (? & ? & ? & ? & ? & ?), As' as (? & ? & ? & ? & ? & ?)|destruct As, As']; split; congruence. }
  destruct (negb force && (is_file f pk || is_file f sk)); [discriminate|]. apply save_done; auto.
Qed.

(** C43 fails: asked to write both keys to one file, it succeeds and the secret key is lost *)
Theorem C43_same_file_refuted : forall p f,
  f p = None -> exists f', run WAll WAll (GenKeys None (Some p) (Some p) false) f = (f', Done) /\ contents f' p = Some gen_pk /\ forall q, q <> p -> f' q = f q.
Proof.
  intros p f E. cbn [Config.run]. unfold is_file. rewrite E. cbn [negb andb orb]. unfold Config.save_keypair, store_secret, store_public, write_file.
  rewrite E, fset_same. eexists. split; [reflexivity|]. unfold contents. rewrite fset_same. split; [reflexivity|].
  intros q N. now rewrite !fset_other by assumption.
Qed.

(** C43: without --force the file of the secret key is private, wherever writing is interrupted *)
Theorem C43_private_partial : forall w1 w2 file public secret f pk sk,
  asked file public secret f pk sk -> pk <> sk -> f sk = None ->
  match fst (run w1 w2 (GenKeys file public secret false) f) sk with Some (NFile m _) => private m | Some _ => False | None => True end.
Proof.
  intros w1 w2 file public secret f pk sk As Ne E.
  destruct (gen_keys_eq w1 w2 file public secret false f) as [(pk' & sk' & As' & ->)|[N _]]; [|destruct (N _ _ As)].
  assert (pk' = pk /\ sk' = sk) as [-> ->].
  { unfold asked in *. destruct file; [destruct As as (? & ? & ? & ? & ? & ?), As' as (? & ? & ? & ? & ? & ?)|destruct As, As']; split; congruence. }
  destruct (negb false && (is_file f pk || is_file f sk)); [cbn [fst]; now rewrite E|].
  unfold Config.save_keypair. pose proof (C68_private_partial umask w1 sk gen_sk f E) as P.
  destruct (store_secret umask w1 sk gen_sk f) as [f1 ok1]. cbn [fst] in P. destruct ok1; [|exact P].
  pose proof (write_other umask M_DEFAULT w2 pk gen_pk f1 sk ltac:(congruence)) as O. unfold store_public.
  destruct (write_file umask M_DEFAULT w2 pk gen_pk f1) as [f2 ok2]. cbn [fst] in *. now rewrite O.
Qed.

(** C43 fails: with --force, a file that anybody can read is given the secret key and anybody can read it still *)
Theorem C43_force_private_refuted : forall pk sk f old,
  pk <> sk -> f pk = None -> f sk = Some (NFile M_PUBLIC old) ->
  exists f', run WAll WAll (GenKeys None (Some pk) (Some sk) true) f = (f', Done) /\ f' sk = Some (NFile M_PUBLIC gen_sk) /\ readable_by_all M_PUBLIC.
Proof.
  intros pk sk f old N Ep Es. cbn [Config.run negb andb]. unfold Config.save_keypair, store_secret, store_public, write_file.
  rewrite Es, fset_other, Ep by assumption. eexists. split; [reflexivity|]. split; [|reflexivity]. rewrite fset_other by congruence. apply fset_same.
Qed.

(** C43 fails: the deprecated command for the same purpose overwrites both files without being told to *)
Theorem C43_keygen_overwrites_refuted : forall pk sk f mp dp ms ds,
  pk <> sk -> f pk = Some (NFile mp dp) -> f sk = Some (NFile ms ds) ->
  exists f', run WAll WAll (Keygen ["secret-key"; sk; "public-key"; pk]) f = (f', Done) /\
    f' sk = Some (NFile ms gen_sk) /\ f' pk = Some (NFile mp gen_pk).
Proof.
  intros pk sk f mp dp ms ds N Ep Es. cbn [Config.run keygen_args String.eqb Ascii.eqb Bool.eqb orb]. unfold Config.save_keypair, store_secret, store_public, write_file.
  rewrite Es, fset_other, Ep by assumption. eexists. split; [reflexivity|]. split; [rewrite fset_other by congruence|]; apply fset_same.
Qed.

(** C43: what the deprecated command writes, when it succeeds; its arguments are options and values in turn *)
Theorem C43_keygen_written_partial : forall w1 w2 args f, snd (run w1 w2 (Keygen args) f) = Done ->
  exists pk sk, keygen_args args None None = Some (Some sk, Some pk) /\
    (sk <> pk -> (is_file f sk = true \/ f sk = None) -> (is_file f pk = true \/ f pk = None) ->
     contents (fst (run w1 w2 (Keygen args) f)) sk = Some gen_sk /\ contents (fst (run w1 w2 (Keygen args) f)) pk = Some gen_pk).
Proof.
  intros w1 w2 args f. cbn [Config.run]. destruct (keygen_args args None None) as [[[sk|] [pk|]]|]; try discriminate.
  intros D. exists pk, sk. split; [reflexivity|]. intros. now apply save_done.
Qed.

(** C43: after a run that was interrupted between the two files, the secret key is there without its public key and the next run refuses *)
Theorem C43_interrupted : forall pk sk f, pk <> sk -> f pk = None -> f sk = None ->
  forall w1 w2, exists f', run WAll WNoOpen (GenKeys None (Some pk) (Some sk) false) f = (f', Failed) /\
    contents f' sk = Some gen_sk /\ f' pk = None /\ run w1 w2 (GenKeys None (Some pk) (Some sk) false) f' = (f', Failed).
Proof.
  intros pk sk f N Ep Es w1 w2. cbn [Config.run]. unfold is_file at 1 2. rewrite Ep, Es. cbn [negb andb orb].
  unfold Config.save_keypair at 1, store_secret at 1, store_public at 1, write_file. rewrite Es. eexists. split; [reflexivity|].
  unfold contents. rewrite fset_same. split; [reflexivity|]. rewrite fset_other by assumption. split; [exact Ep|].
  unfold is_file. rewrite fset_same, fset_other, Ep by assumption. reflexivity.
Qed.

(** C43: the same for the example configuration.  Without --force nothing that exists is changed and the command fails; no other file
    is ever changed; success means that the example is in the file; and if the file can be written, the command succeeds. *)
Theorem C43_gen_config : forall w1 w2 p force f f' o, run w1 w2 (GenConfig p force) f = (f', o) ->
  (force = false -> f p <> None -> f' = f /\ o = Failed) /\
  (forall q, q <> p -> f' q = f q) /\
  (o = Done \/ o = Failed) /\
  (o = Done -> is_file f p = true \/ f p = None -> contents f' p = Some example) /\
  (w1 = WAll -> force = true /\ is_file f p = true \/ f p = None -> o = Done).
Proof.
  intros w1 w2 p force f f' o. cbn [Config.run]. unfold exists_. intros R.
  destruct (force || _) eqn:E.
  - pose proof (write_other umask M_DEFAULT w1 p example f) as Wo. pose proof (write_ok umask M_DEFAULT w1 p example f) as Wk.
    destruct (write_file umask M_DEFAULT w1 p example f) as [f1 ok] eqn:W. assert (f1 = f') by congruence. subst f1. cbn [fst snd] in *.
    split; [|split; [|split; [|split]]].
    + intros -> N. destruct (f p); [discriminate E|congruence].
    + exact Wo.
    + destruct ok; [left|right]; congruence.
    + intros -> C. destruct ok; [|discriminate]. specialize (Wk eq_refl). unfold contents. unfold is_file in C. revert Wk C.
      destruct (f p) as [[m d|m|m]|]; intros Wk C; try (destruct C; discriminate);
        destruct Wk as [_ Wk]; injection Wk as ->; rewrite fset_same; reflexivity.
    + intros -> C. assert (ok = true) as ->; [|congruence]. unfold write_file in W. unfold is_file in C. revert W C.
      destruct (f p) as [[m d|m|m]|]; intros W C; try (destruct C as [[_ C]|C]; discriminate); congruence.
  - apply orb_false_elim in E. destruct E as [-> E]. destruct (f p) eqn:X; [|discriminate E].
    assert (f' = f) by congruence. assert (o = Failed) by congruence. subst. split; [auto|]. split; [auto|]. split; [auto|].
    split; [discriminate|]. intros _ [[C _]|C]; discriminate.
Qed.
End Keys.
Print Assumptions C43_never_overwrites.
Print Assumptions C43_refuses.
Print Assumptions C43_written_partial.
Print Assumptions C43_same_file_refuted.
Print Assumptions C43_private_partial.
Print Assumptions C43_force_private_refuted.
Print Assumptions C43_keygen_overwrites_refuted.
Print Assumptions C43_keygen_written_partial.
Print Assumptions C43_interrupted.
Print Assumptions C43_gen_config.

(** * C69 *)

Section Checking.
Context {A : Type}.
Variable resolve : string -> option (list A).
Variables (junk : bytes -> bytes -> option bytes) (toml : bytes -> option (config A)) (to_toml : config A -> bytes) (example : bytes) (home : path)
  (umask : N) (api : bool) (api_args : nat) (gen_sk gen_pk : bytes) (rand : nat -> bytes).
Notation run := (run resolve junk toml to_toml example home umask api api_args gen_sk gen_pk rand).
Notation verdict_of := (verdict_of resolve toml home).

(** A file that holds a key of the right size *)
Definition key_file (n : N) (f : fs) (p : path) : Prop := exists m d, f p = Some (NFile m d) /\ N.of_nat (length d) = n.

Lemma key_file_iff n f p : key_file n f p <-> is_file f p = true /\ exists d, load n p f = Some d.
Proof.
  unfold key_file, is_file, load, contents. destruct (f p) as [[m d|m|m]|]; split; try (intros (? & ? & ? & ?); discriminate); try (intros [? ?]; discriminate).
  - intros (m' & d' & E & L). assert (d = d') by congruence. subst d'. split; [reflexivity|]. exists d. now rewrite (proj2 (N.eqb_eq _ _) L).
  - intros [_ [d' E]]. exists m, d. split; [reflexivity|]. destruct (N.of_nat (length d) =? n)%N eqn:X; [now apply N.eqb_eq|discriminate].
Qed.
Lemma loads_iff n p f : (is_file f p && loads n p f)%bool = true <-> key_file n f p.
Proof.
  rewrite key_file_iff, andb_true_iff. unfold loads. destruct (load n p f) as [d|].
  - split; intros [H _]; (split; [exact H|]); eauto.
  - split; [intros [_ H]; discriminate|]. intros [_ [d H]]. discriminate.
Qed.

(** What a configuration has to meet: the keys are there, endpoints can be resolved, something is to be done with the key, and the
    output domain is given completely *)
Definition peer_right (f : fs) (p : peer) : Prop :=
  key_file 524160 f (p_public p) /\
  (forall e, p_endpoint p = Some e -> resolve e <> None) /\
  (p_key_out p <> None \/ exists w, p_wg p = Some w /\ wg_device w <> "" /\ wg_peer w <> "") /\
  (p_org p = None <-> p_label p = None).
Definition config_right (f : fs) (c : config A) : Prop :=
  (forall k, c_keypair c = Some k -> key_file 524160 f (k_public k) /\ key_file 13608 f (k_secret k)) /\
  (forall p, In p (c_peers c) -> peer_right f p).

Lemma validate_peer_iff f p : validate_peer resolve f p = true <-> peer_right f p.
Proof.
  unfold validate_peer, peer_right, osk_ok. change 524160%N with SPK_LEN. rewrite !andb_true_iff, <- andb_true_iff, loads_iff.
  assert (X1 : match p_endpoint p with Some e => match resolve e with Some _ => true | None => false end | None => true end = true <->
               (forall e, p_endpoint p = Some e -> resolve e <> None)).
  { destruct (p_endpoint p) as [e|]; [|split; [intros _ e; discriminate|reflexivity]]. split.
    - intros H e' E. assert (e = e') by congruence. subst e'. destruct (resolve e); discriminate.
    - intros H. specialize (H e eq_refl). destruct (resolve e); [reflexivity|congruence]. }
  assert (X2 : match p_key_out p with Some _ => true
               | None => match p_wg p with Some w => negb (String.eqb (wg_device w) "" || String.eqb (wg_peer w) "") | None => false end end = true <->
               (p_key_out p <> None \/ exists w, p_wg p = Some w /\ wg_device w <> "" /\ wg_peer w <> "")).
  { destruct (p_key_out p); [split; [left; discriminate|reflexivity]|]. destruct (p_wg p) as [w|].
    - rewrite negb_true_iff, orb_false_iff, !String.eqb_neq. split; [intros [? ?]; right; eauto|]. intros [H|(w' & E & ? & ?)]; [congruence|].
      assert (w = w') by congruence. subst w'. auto.
    - split; [discriminate|]. intros [H|(? & ? & _)]; congruence. }
  assert (X3 : match p_org p, p_label p with None, None | Some _, Some _ => true | _, _ => false end = true <-> (p_org p = None <-> p_label p = None)).
  { destruct (p_org p), (p_label p).
    - split; [intros _; split; discriminate|reflexivity].
    - split; [discriminate|]. intros [_ H]. discriminate (H eq_refl).
    - split; [discriminate|]. intros [H _]. discriminate (H eq_refl).
    - split; [intros _; split; reflexivity|reflexivity]. }
  rewrite X1, X2, X3. split; [intros [[[? ?] ?] ?]|intros (? & ? & ? & ?)]; auto.
Qed.
Lemma validate_iff f c : validate resolve f c = true <-> config_right f c.
Proof.
  unfold validate, config_right. change 524160%N with SPK_LEN. change 13608%N with SSK_LEN. rewrite andb_true_iff, forallb_forall.
  assert (X : match c_keypair c with Some k => is_file f (k_public k) && loads SPK_LEN (k_public k) f && is_file f (k_secret k) && loads SSK_LEN (k_secret k) f | None => true end = true
     <-> (forall k, c_keypair c = Some k -> key_file SPK_LEN f (k_public k) /\ key_file SSK_LEN f (k_secret k))).
  { destruct (c_keypair c) as [k|]; [|split; [intros _ k; discriminate|reflexivity]].
    rewrite <- andb_assoc, andb_true_iff, !loads_iff. split.
    - intros H k' E. assert (k = k') by congruence. now subst k'.
    - intros H. now apply H. }
  rewrite X. split; intros [H1 H2]; (split; [exact H1|]); intros p I; apply validate_peer_iff; auto.
Qed.

(** C69: the verdict on a file is the right one *)
Theorem C69_verdict : forall f p,
  match verdict_of f p with
  | Passed => exists c, load_config toml home p f = Some c /\ config_right f c
  | Wrong => exists c, load_config toml home p f = Some c /\ ~ config_right f c
  | Unreadable => load_config toml home p f = None
  end.
Proof.
  intros f p. unfold Config.verdict_of. destruct (load_config toml home p f) as [c|]; [|reflexivity].
  destruct (validate resolve f c) eqn:V; exists c; (split; [reflexivity|]).
  - now apply validate_iff.
  - intros R. apply validate_iff in R. congruence.
Qed.

(** C69: checking changes no file *)
Theorem C69_changes_nothing : forall w1 w2 files f, fst (run w1 w2 (Validate files) f) = f.
Proof. reflexivity. Qed.

(** C69: a configuration that is refused cannot be run either *)
Theorem C69_refused : forall w1 w2 p f, verdict_of f p <> Passed -> run w1 w2 (ExchangeConfig p) f = (f, Failed).
Proof.
  intros w1 w2 p f. unfold Config.verdict_of. cbn [Config.run]. destruct (load_config toml home p f) as [c|]; [|reflexivity].
  unfold serve. destruct (validate resolve f c); [congruence|reflexivity].
Qed.

(** What is missing in the check: there is a keypair or a way to get one, preshared keys can be read, and the ids of WireGuard peers
    are Base64 *)
Definition checked_no_further (f : fs) (c : config A) : Prop :=
  (c_keypair c <> None \/ api = true /\ (0 < c_api c + api_args)%nat) /\
  (forall p, In p (c_peers c) ->
     (forall w, p_wg p = Some w -> b64_decode junk (list_byte_of_string (wg_peer w)) (zeros 32) <> None) /\
     (forall q, p_psk p = Some q -> forall i, load_b64 junk MAX_PSK_SIZE (rand i) q f <> None)).

Lemma start_peers_some f l : (forall p, In p l -> peer_right f p /\
     (forall w, p_wg p = Some w -> b64_decode junk (list_byte_of_string (wg_peer w)) (zeros 32) <> None) /\
     (forall q, p_psk p = Some q -> forall i, load_b64 junk MAX_PSK_SIZE (rand i) q f <> None)) ->
  forall i, start_peers junk rand f i l <> None.
Proof.
  induction l as [|p l IH]; intros H i; [discriminate|]. cbn [start_peers].
  destruct (H p (or_introl eq_refl)) as ((K & _ & _ & O) & W & P).
  assert (St : start_peer junk (rand i) f p <> None).
  { unfold start_peer. apply key_file_iff in K as [_ [d K]]. change 524160%N with SPK_LEN in K. rewrite K. unfold osk_ok.
    assert (X : exists wg, match p_wg p with None => Some None | Some w => match b64_decode junk (list_byte_of_string (wg_peer w)) (zeros 32) with
       | Some id => Some (Some (wg_device w, id, wg_extra w)) | None => None end end = Some wg).
    { destruct (p_wg p) as [w|]; [|eauto]. specialize (W w eq_refl). destruct (b64_decode junk (list_byte_of_string (wg_peer w)) (zeros 32)); [eauto|congruence]. }
    destruct X as [wg ->].
    assert (Y : exists k, match p_psk p with None => Some None | Some q => match load_b64 junk MAX_PSK_SIZE (rand i) q f with Some k => Some (Some k) | None => None end end = Some k).
    { destruct (p_psk p) as [q|]; [|eauto]. specialize (P q eq_refl i). destruct (load_b64 junk MAX_PSK_SIZE (rand i) q f); [eauto|congruence]. }
    destruct Y as [k ->].
    destruct (p_org p), (p_label p); try discriminate; destruct O as [O1 O2]; [discriminate (O2 eq_refl)|discriminate (O1 eq_refl)]. }
  destruct (start_peer junk (rand i) f p); [|congruence].
  specialize (IH (fun q I => H q (or_intror I)) (S i)). destruct (start_peers junk rand f (S i) l); [discriminate|congruence].
Qed.

(** C69: a configuration that passes can be run, if nothing is wrong with what is not checked *)
Theorem C69_passed_partial : forall w1 w2 p f c,
  load_config toml home p f = Some c -> verdict_of f p = Passed -> checked_no_further f c ->
  exists s, run w1 w2 (ExchangeConfig p) f = (f, Running s).
Proof.
  intros w1 w2 p f c L V [U P]. unfold Config.verdict_of in V. rewrite L in V. cbn [Config.run]. rewrite L. unfold serve.
  destruct (validate resolve f c) eqn:Va; [|discriminate V]. apply validate_iff in Va as [K R].
  assert (Us : useful api (if api then with_api c (c_api c + api_args) else c) = true).
  { unfold useful. destruct api; cbn [with_api c_keypair c_api]; destruct (c_keypair c); try reflexivity; destruct U as [U|[U1 U2]]; try congruence.
    cbn [andb]. now apply Nat.ltb_lt. }
  rewrite Us. unfold start.
  assert (E1 : c_keypair (if api then with_api c (c_api c + api_args) else c) = c_keypair c) by now destruct api.
  assert (E2 : c_peers (if api then with_api c (c_api c + api_args) else c) = c_peers c) by now destruct api.
  rewrite E1, E2.
  pose proof (start_peers_some f (c_peers c) (fun q I => conj (R q I) (P q I)) 0) as S.
  destruct (start_peers junk rand f 0 (c_peers c)); [|congruence].
  destruct (c_keypair c) as [k|]; [|eauto].
  destruct (K k eq_refl) as [Kp Ks]. change 524160%N with SPK_LEN in Kp. change 13608%N with SSK_LEN in Ks. apply key_file_iff in Kp as [_ [dp ->]], Ks as [_ [ds ->]]. eauto.
Qed.

(** C69 fails: a configuration passes whose preshared key is missing; it cannot be run *)
Theorem C69_missing_psk_refuted : forall w1 w2 f p c q l m,
  load_config toml home p f = Some c -> config_right f c -> c_peers c = q :: l -> p_psk q = Some m -> f m = None ->
  verdict_of f p = Passed /\ run w1 w2 (ExchangeConfig p) f = (f, Failed).
Proof.
  intros w1 w2 f p c q l m L R E1 E2 E3. unfold Config.verdict_of. cbn [Config.run]. rewrite L. apply validate_iff in R. unfold serve. rewrite R. split; [reflexivity|].
  destruct (useful _ _); [|reflexivity]. unfold start.
  assert (E : c_peers (if api then with_api c (c_api c + api_args) else c) = c_peers c) by now destruct api.
  assert (S : start_peers junk rand f 0 (c_peers c) = None).
  { rewrite E1. cbn [start_peers]. unfold start_peer at 1. rewrite E2. unfold load_b64, contents. rewrite E3.
    destruct (match p_wg q with Some _ => _ | None => _ end); reflexivity. }
  rewrite E, S. destruct (match c_keypair _ with Some _ => _ | None => _ end); reflexivity.
Qed.

(** C69 fails: the command succeeds whatever the verdicts are *)
Theorem C69_status_refuted : forall w1 w2 files f, run w1 w2 (Validate files) f = (f, Done).
Proof. reflexivity. Qed.
End Checking.
Print Assumptions C69_verdict.
Print Assumptions C69_changes_nothing.
Print Assumptions C69_refused.
Print Assumptions C69_passed_partial.
Print Assumptions C69_missing_psk_refuted.
Print Assumptions C69_status_refuted.

(** * C77 *)

Fixpoint slashes (n : nat) : string := match n with 0 => "" | S n => String "/" (slashes n) end.
Definition starts_slash (s : string) : Prop := exists r, s = String "/" r.
(** What a path in a configuration file names, when the home directory is [home] *)
Inductive names (home : path) : path -> path -> Prop :=
| N_home : forall n, names home (String "~" (slashes n)) home
| N_below : forall n s, s <> "" -> ~ starts_slash s -> names home (String "~" (slashes (S n) ++ s)%string) (join home s)
| N_other : forall p, (forall s, p = String "~" s -> s <> "" /\ ~ starts_slash s) -> names home p p.
Definition opt_rel {X Y} (r : X -> Y -> Prop) (a : option X) (b : option Y) : Prop :=
  match a, b with None, None => True | Some x, Some y => r x y | _, _ => False end.
Definition peer_named (home : path) (a b : peer) : Prop :=
  names home (p_public a) (p_public b) /\ opt_rel (names home) (p_psk a) (p_psk b) /\ opt_rel (names home) (p_key_out a) (p_key_out b) /\
  p_endpoint b = p_endpoint a /\ p_wg b = p_wg a /\ p_v03 b = p_v03 a /\ p_org b = p_org a /\ p_label b = p_label a.
Definition config_named {A} (home : path) (a b : config A) : Prop :=
  opt_rel (fun x y => names home (k_public x) (k_public y) /\ names home (k_secret x) (k_secret y)) (c_keypair a) (c_keypair b) /\
  Forall2 (peer_named home) (c_peers a) (c_peers b) /\
  c_listen b = c_listen a /\ c_verbosity b = c_verbosity a /\ c_api b = c_api a.

Lemma slash_split s : exists n r, s = (slashes n ++ r)%string /\ ~ starts_slash r /\ drop_slashes s = r.
Proof.
  induction s as [|c s (n & r & E & N & D)]; [exists 0, ""; repeat split; intros [r E]; discriminate E|].
  destruct (Ascii.ascii_dec c "/") as [Ec|Ec].
  - subst c. exists (S n), r. cbn [slashes drop_slashes append]. rewrite <- E. auto.
  - exists 0, (String c s). split; [reflexivity|]. split; [intros [r' E']; congruence|].
    destruct c as [[] [] [] [] [] [] [] []]; try reflexivity. congruence.
Qed.
Lemma slashes_app_nil n : (slashes n ++ "")%string = slashes n.
Proof. induction n; cbn; congruence. Qed.
Lemma slashes_unique n : forall m r r', ~ starts_slash r -> ~ starts_slash r' -> (slashes n ++ r)%string = (slashes m ++ r')%string -> n = m /\ r = r'.
Proof.
  induction n as [|n IH]; intros [|m] r r' N N' E; cbn [slashes append] in E; [auto|exfalso; apply N; eexists; exact E|exfalso; apply N'; eexists; symmetry; exact E|].
  destruct (IH m r r' N N') as [E1 E2]; [congruence|]. subst. auto.
Qed.
Lemma resolve_names home p : names home p (resolve_tilde home p).
Proof.
  destruct p as [|c s]; [constructor; discriminate|].
  destruct (Ascii.ascii_dec c "~") as [Ec|Ec].
  2:{ replace (resolve_tilde home (String c s)) with (String c s); [constructor; intros s' E; congruence|].
      destruct c as [[] [] [] [] [] [] [] []]; try reflexivity. congruence. }
  subst c. destruct s as [|c s]; [exact (N_home home 0)|].
  destruct (Ascii.ascii_dec c "/") as [Ec|Ec].
  - subst c. destruct (slash_split s) as (n & r & E & N & D). unfold resolve_tilde. rewrite D. destruct r as [|c r].
    + rewrite E, slashes_app_nil. exact (N_home home (S n)).
    + rewrite E. apply (N_below home n); [discriminate|exact N].
  - replace (resolve_tilde home (String "~" (String c s))) with (String "~" (String c s)).
    + constructor. intros s' E. assert (s' = String c s) by congruence. subst s'. split; [discriminate|]. intros [r E']. congruence.
    + destruct c as [[] [] [] [] [] [] [] []]; try reflexivity. congruence.
Qed.
Lemma names_one home p q q' : names home p q -> names home p q' -> q = q'.
Proof.
  assert (NS : ~ starts_slash "") by (intros [r E]; discriminate E).
  assert (HB : forall n m s, s <> "" -> ~ starts_slash s -> slashes n = (slashes (S m) ++ s)%string -> False).
  { intros n m s Ns N E. rewrite <- (slashes_app_nil n) in E. apply slashes_unique in E as [_ E]; auto. }
  assert (HO : forall p, (forall s, p = String "~" s -> s <> "" /\ ~ starts_slash s) -> forall n r, p = String "~" (slashes n ++ r)%string -> n = 0 /\ r <> "").
  { intros p0 H n r E. destruct (H _ E) as [N S]. destruct n as [|n]; [auto|]. exfalso. apply S. cbn [slashes append]. eexists. reflexivity. }
  intros H H'. inversion H as [n E1 E2|n s Ns N E1 E2|p0 O E1 E2]; subst; inversion H' as [n' E1 E2|n' s' Ns' N' E1 E2|p0 O' E1 E2]; subst; try reflexivity.
  - exfalso. eapply HB; [exact Ns'|exact N'|symmetry; exact E1].
  - exfalso. destruct (HO _ O' n "") as [_ X]; [now rewrite slashes_app_nil|auto].
  - exfalso. eapply HB; [exact Ns|exact N|exact E1].
  - change (String "/" (slashes n' ++ s')) with (slashes (S n') ++ s')%string in E1. change (String "/" (slashes n ++ s)) with (slashes (S n) ++ s)%string in E1.
    apply slashes_unique in E1 as [_ E1]; auto. now subst.
  - exfalso. destruct (HO _ O' (S n) s) as [X _]; [reflexivity|discriminate].
  - exfalso. destruct (HO _ O n' "") as [_ X]; [now rewrite slashes_app_nil|auto].
  - exfalso. destruct (HO _ O (S n') s') as [X _]; [reflexivity|discriminate].
Qed.
Lemma names_iff home p q : names home p q <-> q = resolve_tilde home p.
Proof. split; [intros H; exact (names_one _ _ _ _ H (resolve_names home p))|intros E; subst q; apply resolve_names]. Qed.
Lemma opt_names home a b : opt_rel (names home) a b <-> b = option_map (resolve_tilde home) a.
Proof.
  destruct a as [a|], b as [b|]; cbn [opt_rel option_map]; try (split; [contradiction|discriminate]); [|split; auto].
  rewrite names_iff. split; congruence.
Qed.
Lemma peer_named_iff home a b : peer_named home a b <-> b = resolve_peer home a.
Proof.
  unfold peer_named. rewrite names_iff, !opt_names. split.
  - destruct b as [b1 b2 b3 b4 b5 b6 b7 b8]. cbn [p_public p_psk p_key_out p_endpoint p_wg p_v03 p_org p_label]. intros (E1 & E2 & E3 & E4 & E5 & E6 & E7 & E8).
    subst. reflexivity.
  - intros E. subst b. repeat split.
Qed.
Lemma peers_named_iff home l l' : Forall2 (peer_named home) l l' <-> l' = map (resolve_peer home) l.
Proof.
  revert l'. induction l as [|a l IH]; intros l'.
  - split; [intros H; now inversion H|intros E; subst; constructor].
  - cbn [map]. split.
    + intros H. inversion H as [|? b ? r Hab Hr]. subst. apply peer_named_iff in Hab. apply IH in Hr. congruence.
    + intros E. subst. constructor; [now apply peer_named_iff|now apply IH].
Qed.

(** C77: a configuration file is read as what it says, with a leading `~` in the names of key files standing for the home directory
    and nothing else changed *)
Theorem C77_read : forall {A} (toml : bytes -> option (config A)) home p f c,
  load_config toml home p f = Some c <->
  exists d c0, contents f p = Some d /\ toml d = Some c0 /\ config_named home c0 c /\ c_path c = p.
Proof.
  intros A toml home p f c. unfold load_config. destruct (contents f p) as [d|]; [|split; [discriminate|intros (d & ? & E & _); discriminate E]].
  destruct (toml d) as [c0|] eqn:T; [|split; [discriminate|intros (d' & ? & E & E' & _); congruence]].
  assert (K : config_named home c0 c /\ c_path c = p <->
    with_path (with_peers (with_keypair c0 (option_map (fun k => {| k_public := resolve_tilde home (k_public k); k_secret := resolve_tilde home (k_secret k) |}) (c_keypair c0)))
      (map (resolve_peer home) (c_peers c0))) p = c).
  { unfold config_named. rewrite peers_named_iff. split.
    - intros ((E1 & E2 & E3 & E4 & E5) & E6). destruct c as [c1 c2 c3 c4 c5 c6]. cbn [c_keypair c_listen c_verbosity c_peers c_api c_path] in *. subst.
      unfold with_path, with_peers, with_keypair. cbn [c_keypair c_listen c_verbosity c_peers c_api c_path]. f_equal.
      destruct (c_keypair c0) as [k|], c1 as [k1|]; cbn [opt_rel option_map] in *; try contradiction; [|reflexivity].
      destruct E1 as [E1 E2]. apply names_iff in E1, E2. destruct k1 as [k1 k2]. cbn [k_public k_secret] in *. now subst.
    - intros E. subst c. unfold with_path, with_peers, with_keypair. cbn [c_keypair c_listen c_verbosity c_peers c_api c_path]. repeat split.
      destruct (c_keypair c0) as [k|]; cbn [opt_rel option_map k_public k_secret]; [|auto]. split; apply resolve_names. }
  split.
  - intros E. assert (E' : forall x, Some x = Some c -> x = c) by congruence. apply E' in E. apply K in E. exists d, c0. tauto.
  - intros (d' & c0' & E1 & E2 & E3). assert (d' = d) by congruence. subst d'. assert (c0' = c0) by congruence. subst c0'. f_equal. now apply K.
Qed.
Print Assumptions C77_read.

(** A peer of a server is the peer of the configuration: files are named as above, the preshared key is what its file stands for, the
    WireGuard peer is what its text stands for, and there is a preshared key, a key file and a WireGuard peer if there is one in the
    configuration *)
Definition peer_serves (junk : bytes -> bytes -> option bytes) (home : path) (f : fs) (a : peer) (s : srv_peer) : Prop :=
  (exists k, names home (p_public a) k /\ contents f k = Some (s_pk s) /\ N.of_nat (length (s_pk s)) = 524160%N) /\
  opt_rel (fun q k => exists q' rnd, names home q q' /\ load_b64 junk MAX_PSK_SIZE rnd q' f = Some k) (p_psk a) (s_psk s) /\
  opt_rel (names home) (p_key_out a) (s_out s) /\ s_endpoint s = p_endpoint a /\ s_v03 s = p_v03 a /\
  opt_rel (fun w v => exists id, v = (wg_device w, id, wg_extra w) /\ b64_decode junk (list_byte_of_string (wg_peer w)) (zeros 32) = Some id) (p_wg a) (s_wg s) /\
  match p_org a, p_label a with Some o, Some l => s_domain s = Some (o, l) | None, None => s_domain s = None | _, _ => False end.

Lemma start_peer_serves junk rnd home f a p s : peer_named home a p -> start_peer junk rnd f p = Some s -> peer_serves junk home f a s.
Proof.
  intros (N1 & N2 & N3 & E1 & E2 & E3 & E4 & E5). unfold start_peer, peer_serves. intros H. rewrite E2, E4, E5 in H.
  destruct (load SPK_LEN (p_public p) f) as [pk|] eqn:El.
  2:{ destruct (match p_wg a with Some _ => _ | None => _ end); [|discriminate]. destruct (match p_psk p with Some _ => _ | None => _ end); discriminate. }
  apply C68_exact in El as [[m El] Len].
  unfold osk_ok in H. rewrite E4, E5 in H.
  destruct (p_wg a) as [w|]; [destruct (b64_decode junk (list_byte_of_string (wg_peer w)) (zeros 32)) as [id|] eqn:Ei; [|discriminate H]|].
  all: destruct (p_psk a) as [q|], (p_psk p) as [q'|]; cbn [opt_rel] in N2; try contradiction; [destruct (load_b64 junk MAX_PSK_SIZE rnd q' f) as [k|] eqn:Ek; [|discriminate H]|].
  all: destruct (p_org a) as [o|], (p_label a) as [l|]; try discriminate H.
  all: match type of H with Some ?x = Some ?y => assert (Es : x = y) by congruence end; rewrite <- Es; cbn [s_pk s_endpoint s_out s_psk s_wg s_v03 s_domain opt_rel].
  all: split; [exists (p_public p); unfold contents; rewrite El; auto|].
  all: rewrite E1, E3; repeat split; eauto.
Qed.

(** C77: a server started with a configuration file has the keys, the addresses and the peers the file says *)
Theorem C77_runs_as_configured : forall {A} (resolve : string -> option (list A)) junk toml to_toml example home umask api api_args gen_sk gen_pk rand w1 w2 p f f' s,
  run resolve junk toml to_toml example home umask api api_args gen_sk gen_pk rand w1 w2 (ExchangeConfig p) f = (f', Running s) ->
  f' = f /\ exists d c, contents f p = Some d /\ toml d = Some c /\
    opt_rel (fun k v => exists pk sk, names home (k_public k) pk /\ names home (k_secret k) sk /\ contents f sk = Some (fst v) /\ contents f pk = Some (snd v))
      (c_keypair c) (s_keys s) /\
    s_listen s = c_listen c /\ Forall2 (peer_serves junk home f) (c_peers c) (s_peers s) /\
    (c_keypair c = None -> api = true /\ (0 < c_api c + api_args)%nat).
Proof.
  intros A resolve junk toml to_toml example home umask api api_args gen_sk gen_pk rand w1 w2 p f f' s H. cbn [run] in H.
  destruct (load_config toml home p f) as [cfg|] eqn:L; [|discriminate H]. assert (f' = f) by congruence. subst f'. split; [reflexivity|].
  apply C77_read in L as (d & c & E1 & E2 & (N1 & N2 & N3 & _ & N5) & _). exists d, c. split; [exact E1|]. split; [exact E2|].
  assert (Sv : serve resolve junk api api_args rand cfg f = Running s) by congruence. clear H. revert Sv. unfold serve.
  destruct (validate resolve f cfg); [|discriminate].
  set (cfg2 := if api then with_api cfg (c_api cfg + api_args) else cfg).
  assert (E3 : c_keypair cfg2 = c_keypair cfg /\ c_listen cfg2 = c_listen cfg /\ c_peers cfg2 = c_peers cfg /\ (api = true -> c_api cfg2 = c_api cfg + api_args)) by (unfold cfg2; destruct api; cbn; repeat split; auto; discriminate).
  clearbody cfg2. destruct E3 as (Ek & El & Ep & Ea). destruct (useful api cfg2) eqn:U; [|discriminate]. destruct (start junk rand f cfg2) as [s'|] eqn:St; [|discriminate].
  intros Hs. assert (s' = s) by congruence. subst s'. clear Hs. unfold start in St. rewrite Ek, El, Ep in St.
  assert (Us : c_keypair c = None -> api = true /\ (0 < c_api c + api_args)%nat).
  { intros E. rewrite E in N1. unfold useful in U. rewrite Ek in U. destruct (c_keypair cfg); [contradiction|]. apply andb_prop in U as [U1 U2].
    split; [exact U1|]. apply Nat.ltb_lt in U2. rewrite Ea, N5 in U2 by assumption. exact U2. }
  rewrite N3 in St. destruct (c_keypair c) as [k|], (c_keypair cfg) as [k'|]; cbn [opt_rel] in N1; try contradiction.
  - destruct N1 as [Np Ns]. destruct (load SSK_LEN (k_secret k') f) as [dsk|] eqn:L1; [|discriminate St]. destruct (load SPK_LEN (k_public k') f) as [dpk|] eqn:L2; [|discriminate St].
    destruct (start_peers junk rand f 0 (c_peers cfg)) as [ps|] eqn:Sp; [|discriminate St].
    assert (Es : s = {| s_keys := Some (dsk, dpk); s_listen := c_listen c; s_peers := ps |}) by congruence. subst s. cbn [s_keys s_listen s_peers opt_rel fst snd].
    apply C68_exact in L1 as [[m1 L1] _], L2 as [[m2 L2] _]. split; [exists (k_public k'), (k_secret k'); unfold contents; rewrite L1, L2; auto|].
    split; [reflexivity|]. split; [|exact Us]. apply start_peers_each in Sp. clear - N2 Sp. revert ps Sp.
    induction N2 as [|a b l l' Nab N2 IH]; intros ps Sp; inversion Sp as [|? sp ? sps' (k & St) Sps' Ea Eb]; subst; constructor; [|now apply IH].
    exact (start_peer_serves junk (rand k) home f a b sp Nab St).
  - destruct (start_peers junk rand f 0 (c_peers cfg)) as [ps|] eqn:Sp; [|discriminate St].
    assert (Es : s = {| s_keys := None; s_listen := c_listen c; s_peers := ps |}) by congruence. subst s. cbn [s_keys s_listen s_peers opt_rel].
    split; [exact I|]. split; [reflexivity|]. split; [|exact Us]. apply start_peers_each in Sp. clear - N2 Sp. revert ps Sp.
    induction N2 as [|a b l l' Nab N2 IH]; intros ps Sp; inversion Sp as [|? sp ? sps' (k & St) Sps' Ea Eb]; subst; constructor; [|now apply IH].
    exact (start_peer_serves junk (rand k) home f a b sp Nab St).
Qed.
Print Assumptions C77_runs_as_configured.
Example C77_case : forall toml c0, toml [] = Some (c0 : config nat) ->
  c_keypair c0 = Some {| k_public := "~//pk"; k_secret := "/etc/~/sk" |} -> c_peers c0 = [] -> 
  forall f, f "c" = Some (NFile 420 []) -> exists c, load_config toml "/home/u" "c" f = Some c /\ c_keypair c = Some {| k_public := "/home/u/pk"; k_secret := "/etc/~/sk" |}.
Proof. intros toml c0 E K P f F. unfold load_config, contents. rewrite F, E, K. eexists. split; reflexivity. Qed.

(** * Cases *)

Definition no_resolve (s : string) : option (list nat) := if String.eqb s "host:1" then Some [1] else if String.eqb s "[::]:9" then Some [2; 3] else None.

(** A command line with two peers: its configuration *)
Example C42_case :
  parse_args no_resolve ["public-key"; "pk"; "secret-key"; "sk"; "listen"; "[::]:9"; "verbose";
                         "peer"; "public-key"; "a"; "endpoint"; "host:1"; "outfile"; "o"; "wireguard"; "wg0"; "id"; "x"; "public-key";
                         "peer"; "preshared-key"; "k"; "public-key"; "b"]
  = Ok {| c_keypair := Some {| k_public := "pk"; k_secret := "sk" |}; c_listen := [2; 3]; c_verbosity := Verbose;
          c_peers := [{| p_public := "a"; p_endpoint := Some "host:1"; p_psk := None; p_key_out := Some "o";
                         p_wg := Some {| wg_device := "wg0"; wg_peer := "id"; wg_extra := ["x"; "public-key"] |}; p_v03 := false; p_org := None; p_label := None |};
                      {| p_public := "b"; p_endpoint := None; p_psk := Some "k"; p_key_out := None; p_wg := None; p_v03 := false; p_org := None; p_label := None |}];
          c_api := 0; c_path := "" |}.
Proof. reflexivity. Qed.
Example C42_psk_case :
  parse_args no_resolve ["public-key"; "pk"; "secret-key"; "sk"; "peer"; "public-key"; "a"; "endpoint"; "host:1"; "preshared-key"; "k"; "outfile"; "o"] = Err tt.
Proof. reflexivity. Qed.

(** A directory with the keys of a host and of one peer *)
Definition keys_fs : fs := fun p =>
  if String.eqb p "sk" then Some (NFile 384 (zeros (N.to_nat SSK_LEN)))
  else if String.eqb p "pk" then Some (NFile 420 (zeros (N.to_nat SPK_LEN)))
  else if String.eqb p "c" then Some (NFile 420 [])
  else None.
Definition keys_peer psk : peer :=
  {| p_public := "pk"; p_endpoint := Some "host:1"; p_psk := psk; p_key_out := Some "o"; p_wg := None; p_v03 := true; p_org := None; p_label := None |}.
Definition keys_config psk : config nat :=
  {| c_keypair := Some {| k_public := "pk"; k_secret := "sk" |}; c_listen := [2]; c_verbosity := Quiet; c_peers := [keys_peer psk]; c_api := 0; c_path := "" |}.
Lemma keys_right psk : config_right no_resolve keys_fs (keys_config psk).
Proof.
  assert (K : key_file SPK_LEN keys_fs "pk").
  { exists 420%N, (zeros (N.to_nat SPK_LEN)). split; [reflexivity|]. unfold zeros. now rewrite repeat_length, N2Nat.id. }
  split.
  - intros k E. assert (k = {| k_public := "pk"; k_secret := "sk" |}) by (cbn [keys_config c_keypair] in E; congruence). subst k. split; [exact K|].
    exists 384%N, (zeros (N.to_nat SSK_LEN)). split; [reflexivity|]. unfold zeros. now rewrite repeat_length, N2Nat.id.
  - intros p [<-|[]]. split; [exact K|]. split.
    + intros e E. assert (e = "host:1") by (cbn [keys_peer p_endpoint] in E; congruence). subst e. discriminate.
    + split; [left; discriminate|]. split; reflexivity.
Qed.
(** The case of [C69_passed_partial]: such a configuration is run *)
Example C69_case : forall junk, exists s,
  run no_resolve junk (fun _ => Some (keys_config None)) (fun _ => []) [] "/home" 0%N false 0 [] [] (fun _ => []) WAll WAll (ExchangeConfig "c") keys_fs = (keys_fs, Running s).
Proof.
  intros junk. apply (C69_passed_partial no_resolve junk (fun _ => Some (keys_config None)) (fun _ => []) [] "/home" 0%N false 0 [] [] (fun _ => []) WAll WAll "c" keys_fs
     (with_path (keys_config None) "c")).
  - reflexivity.
  - pose proof (proj2 (validate_iff no_resolve keys_fs (with_path (keys_config None) "c")) (keys_right None)) as V.
    change (verdict_of no_resolve (fun _ => Some (keys_config None)) "/home" keys_fs "c")
      with (if validate no_resolve keys_fs (with_path (keys_config None) "c") then Passed else Wrong). now rewrite V.
  - split; [left; discriminate|]. intros p [<-|[]]. split; intros ? E; discriminate E.
Qed.
(** The case of [C69_missing_psk_refuted] *)
Example C69_psk_case : forall junk,
  verdict_of no_resolve (fun _ => Some (keys_config (Some "k"))) "/home" keys_fs "c" = Passed /\
  run no_resolve junk (fun _ => Some (keys_config (Some "k"))) (fun _ => []) [] "/home" 0%N false 0 [] [] (fun _ => []) WAll WAll (ExchangeConfig "c") keys_fs = (keys_fs, Failed).
Proof.
  intros junk. apply (C69_missing_psk_refuted no_resolve junk (fun _ => Some (keys_config (Some "k"))) (fun _ => []) [] "/home" 0%N false 0 [] [] (fun _ => []) WAll WAll keys_fs "c"
    (with_path (keys_config (Some "k")) "c") (keys_peer (Some "k")) [] "k"); try reflexivity. apply keys_right.
Qed.

(** New keys in an empty directory, and the same again *)
Example C43_case :
  let run := run no_resolve (fun _ _ => None) (fun _ => None) (fun _ => []) [] "/home" 18%N false 0 [x53] [x50] (fun _ => []) in
  let '(f, o) := run WAll WAll (GenKeys None (Some "pk") (Some "sk") false) (fun _ => None) in
  o = Done /\ f "sk" = Some (NFile M_SECRET [x53]) /\ f "pk" = Some (NFile M_PUBLIC [x50]) /\
  run WAll WAll (GenKeys None (Some "pk") (Some "sk") false) f = (f, Failed).
Proof. repeat split. Qed.
