(** C116: a configuration that is written back to the file it was read from. *)
From Coq Require Import Strings.Ascii Strings.String.
From Verif Require Import Base Files PFiles Config PConfig Rp TomlConfig PTomlConfig Commit.
Local Open Scope string_scope.
Local Open Scope list_scope.

(** * Lemmas *)

Lemma write_other umask mode w p d f q : q <> p -> fst (write_file umask mode w p d f) q = f q.
Proof.
  intros N. unfold write_file. destruct w; destruct (f p) as [[]|]; cbn [fst]; auto; now apply fset_other.
Qed.
(** What a write leaves in a file, or where there was none. *)
Lemma write_leaves umask mode w p d f : is_file f p = true \/ f p = None ->
  contents (fst (write_file umask mode w p d f)) p = contents f p \/
  exists n, contents (fst (write_file umask mode w p d f)) p = Some (firstn n d).
Proof.
  intros R. unfold write_file, contents. destruct w as [|n|]; [now left|right; exists n|right; exists (length d); rewrite firstn_all];
    (destruct R as [R|R]; [unfold is_file in R; destruct (f p) as [[m x|m|m]|]; try discriminate R|rewrite R]); cbn [fst]; now rewrite fset_same.
Qed.
Lemma write_kind umask mode w p d f : is_file f p = true \/ f p = None ->
  is_file (fst (write_file umask mode w p d f)) p = true \/ fst (write_file umask mode w p d f) p = None.
Proof.
  intros R. unfold write_file. destruct w as [|n|]; [exact R|left|left];
    (destruct R as [R|R]; [unfold is_file in R; destruct (f p) as [[m x|m|m]|]; try discriminate R|rewrite R]); cbn [fst]; unfold is_file; now rewrite fset_same.
Qed.

(** A path that begins with a slash is not one of the home directory, and resolving gives none. *)
Definition absolute (p : path) : Prop := exists s, p = String "/"%char s.
Lemma absolute_join h s : absolute h -> absolute (join h s).
Proof. intros (x & ->). unfold join. destruct (_ || _)%bool; eexists; reflexivity. Qed.
Lemma resolved_plain home p : absolute home -> ~ tilde (resolve_tilde home p).
Proof.
  intros H.
  assert (K : forall q, absolute q -> ~ tilde q).
  { intros q (s & ->) [T|(t & T)]; discriminate T. }
  unfold resolve_tilde. destruct p as [|c p]; [intros [T|(t & T)]; discriminate T|].
  destruct (Ascii.ascii_dec c "~"%char) as [->|D].
  - destruct p as [|d p]; [now apply K|]. destruct (Ascii.ascii_dec d "/"%char) as [->|D].
    + destruct (drop_slashes p); [now apply K|]. now apply K, absolute_join.
    + assert (E : ~ tilde (String "~" (String d p))) by (intros [T|(t & T)]; [discriminate T|]; apply D; cbn in T; congruence).
      destruct d as [b0 b1 b2 b3 b4 b5 b6 b7]; destruct b0, b1, b2, b3, b4, b5, b6, b7; try exact E. exfalso. now apply D.
  - assert (E : ~ tilde (String c p)) by (intros [T|(t & T)]; apply D; cbn in T; congruence).
    destruct c as [b0 b1 b2 b3 b4 b5 b6 b7]; destruct b0, b1, b2, b3, b4, b5, b6, b7; try exact E. exfalso. now apply D.
Qed.
Lemma loaded_plain {A} (toml : bytes -> option (config A)) home F f c : absolute home -> load_config toml home F f = Some c ->
  c_path c = F /\ forall p, In p (config_paths c) -> ~ tilde p.
Proof.
  intros H L. unfold load_config in L. destruct (contents f F) as [d|]; [|discriminate L]. destruct (toml d) as [c0|]; [|discriminate L].
  injection L as <-. split; [reflexivity|]. intros p. unfold config_paths, with_path, with_peers, with_keypair. cbn [c_keypair c_peers].
  rewrite in_app_iff, in_flat_map. intros [I|(q & I & J)].
  - destruct (c_keypair c0) as [[a b]|]; cbn [option_map In k_public k_secret] in I; [|contradiction].
    destruct I as [<-|[<-|[]]]; now apply resolved_plain.
  - apply in_map_iff in I as (r & <- & _). unfold resolve_peer, with_key_out, with_psk, with_public in J.
    cbn [p_public p_psk p_key_out] in J. destruct J as [<-|J]; [now apply resolved_plain|].
    cbn [app] in J. rewrite in_app_iff in J. destruct J as [J|J].
    + destruct (p_psk r); cbn [option_map opt_path In] in J; [|contradiction]. destruct J as [<-|J]; [|contradiction]. now apply resolved_plain.
    + destruct (p_key_out r); cbn [option_map opt_path In] in J; [|contradiction]. destruct J as [<-|J]; [|contradiction]. now apply resolved_plain.
Qed.

Section Commit.
Context {A : Type}.
Context (print : table -> option bytes) (show_addr : A -> string) (api : bool) (umask : N).
Notation commit := (commit print show_addr api umask).

(** * C116 *)

(** A commit that succeeds leaves the text of the configuration in the file it names, with the permissions the file had, or those
    of a public file; no other file changes. *)
Theorem C116_committed : forall w1 w2 c a f f', commit w1 w2 c a f = (f', Ok tt) -> is_file f (c_path c) = true \/ f (c_path c) = None ->
  exists d, print (ser_config show_addr api c a) = Some d /\
    f' (c_path c) = Some (NFile match f (c_path c) with Some (NFile m _) => m | _ => N.ldiff 420 umask end d) /\
    forall q, q <> c_path c -> f' q = f q.
Proof.
  intros w1 w2 c a f f' H R. unfold Commit.commit, store_config in H. set (p := c_path c) in *.
  destruct (String.eqb p ""); [discriminate H|]. destruct (print _) as [d|]; [|discriminate H]. exists d. split; [reflexivity|].
  destruct (write_file umask M_PUBLIC w1 p d f) as [f1 ok1] eqn:W1. destruct ok1; [|discriminate H].
  destruct (write_file umask M_DEFAULT w2 p d f1) as [f2 ok2] eqn:W2. destruct ok2; [|discriminate H]. assert (f2 = f') as -> by congruence. clear H.
  assert (O : forall q, q <> p -> f' q = f q).
  { intros q N. pose proof (write_other umask M_DEFAULT w2 p d f1 q N) as E2. pose proof (write_other umask M_PUBLIC w1 p d f q N) as E1.
    rewrite W2 in E2. rewrite W1 in E1. cbn [fst] in *. congruence. }
  split; [|exact O].
  pose proof (write_ok umask M_PUBLIC w1 p d f) as K1. rewrite W1 in K1. destruct (K1 eq_refl) as (_ & K). clear K1.
  pose proof (write_ok umask M_DEFAULT w2 p d f1) as K2. rewrite W2 in K2. destruct (K2 eq_refl) as (_ & K').
  destruct R as [R|R].
  - unfold is_file in R. destruct (f p) as [[m x|m|m]|]; try discriminate R.
    assert (f1 = fset f p (NFile m d)) as -> by congruence. rewrite fset_same in K'. assert (f' = fset (fset f p (NFile m d)) p (NFile m d)) as -> by congruence.
    now rewrite fset_same.
  - rewrite R in K |- *. assert (f1 = fset f p (NFile (N.ldiff M_PUBLIC umask) d)) as -> by congruence. rewrite fset_same in K'.
    assert (f' = fset (fset f p (NFile (N.ldiff M_PUBLIC umask) d)) p (NFile (N.ldiff M_PUBLIC umask) d)) as -> by congruence.
    now rewrite fset_same.
Qed.

(** A configuration that was not read from a file, and names none, cannot be committed. *)
Theorem C116_nowhere : forall w1 w2 c a f, c_path c = "" -> commit w1 w2 c a f = (f, Err tt).
Proof. intros w1 w2 c a f E. unfold Commit.commit. now rewrite E. Qed.

(** Whatever goes wrong, only this file changes; it has its old contents or a part of the new text from the start. *)
Theorem C116_interrupted : forall w1 w2 c a f f' r, commit w1 w2 c a f = (f', r) -> is_file f (c_path c) = true \/ f (c_path c) = None ->
  r <> Panic /\ (forall q, q <> c_path c -> f' q = f q) /\
  (contents f' (c_path c) = contents f (c_path c) \/ contents f' (c_path c) = Some [] \/
   exists d n, print (ser_config show_addr api c a) = Some d /\ contents f' (c_path c) = Some (firstn n d)).
Proof.
  intros w1 w2 c a f f' r H R. unfold Commit.commit, store_config in H. set (p := c_path c) in *.
  destruct (String.eqb p ""); [assert (f' = f /\ r = Err tt) as (-> & ->) by (split; congruence); split; [discriminate|]; auto|].
  destruct (print _) as [d|].
  - destruct (write_file umask M_PUBLIC w1 p d f) as [f1 ok1] eqn:W1.
    pose proof (write_leaves umask M_PUBLIC w1 p d f R) as L1. pose proof (write_kind umask M_PUBLIC w1 p d f R) as R1.
    assert (O1 : forall q, q <> p -> f1 q = f q).
    { intros q N. pose proof (write_other umask M_PUBLIC w1 p d f q N) as E1. now rewrite W1 in E1. }
    rewrite W1 in L1, R1. cbn [fst] in L1, R1.
    destruct ok1.
    + destruct (write_file umask M_DEFAULT w2 p d f1) as [f2 ok2] eqn:W2. assert (f2 = f') as -> by congruence.
      pose proof (write_leaves umask M_DEFAULT w2 p d f1 R1) as L2. rewrite W2 in L2. cbn [fst] in L2.
      split; [destruct ok2; congruence|]. split.
      * intros q N. pose proof (write_other umask M_DEFAULT w2 p d f1 q N) as E2. rewrite W2 in E2. cbn [fst] in E2. rewrite E2. now apply O1.
      * destruct L2 as [L2|(n & L2)]; [rewrite L2; destruct L1 as [L1|(n & L1)]; [now left|]|]; right; right; exists d, n; auto.
    + assert (f1 = f' /\ r = Err tt) as (-> & ->) by (split; congruence). split; [discriminate|]. split; [exact O1|].
      destruct L1 as [L1|(n & L1)]; [now left|]. right; right; exists d, n; auto.
  - assert (E : f' = fst (write_file umask M_PUBLIC (match w1 with WNoOpen => WNoOpen | _ => WStops 0 end) p [] f) /\ r = Err tt) by (split; congruence).
    destruct E as (-> & ->). split; [discriminate|]. split; [intros q N; now apply write_other|].
    destruct (write_leaves umask M_PUBLIC (match w1 with WNoOpen => WNoOpen | _ => WStops 0 end) p [] f R) as [L|(n & L)]; [now left|].
    rewrite firstn_nil in L. auto.
Qed.

(** Full property: an interrupted commit leaves the old configuration or the new one.  It can leave any part of the new text, also when
    the new text was in the file already: it is written twice. *)
Theorem C116_lost_refuted : forall c a f m old d n, f (c_path c) = Some (NFile m old) -> c_path c <> "" ->
  print (ser_config show_addr api c a) = Some d ->
  (exists f', commit (WStops n) WAll c a f = (f', Err tt) /\ contents f' (c_path c) = Some (firstn n d)) /\
  (exists f', commit WAll (WStops n) c a f = (f', Err tt) /\ contents f' (c_path c) = Some (firstn n d)).
Proof.
  intros c a f m old d n E N P. unfold Commit.commit, store_config. apply String.eqb_neq in N as ->. rewrite P. unfold write_file. rewrite E, fset_same.
  split; (eexists; split; [reflexivity|]); unfold contents; now rewrite !fset_same.
Qed.

(** And if the configuration cannot be written as text, because of a path, the call says so after it has emptied the file. *)
Theorem C116_emptied_refuted : forall w2 c a f m old, f (c_path c) = Some (NFile m old) -> c_path c <> "" ->
  print (ser_config show_addr api c a) = None ->
  exists f', commit WAll w2 c a f = (f', Err tt) /\ contents f' (c_path c) = Some [].
Proof.
  intros w2 c a f m old E N P. unfold Commit.commit. apply String.eqb_neq in N as ->. rewrite P. unfold write_file. rewrite E.
  eexists. split; [reflexivity|]. cbn [fst]. unfold contents. now rewrite fset_same.
Qed.

(** ** Read again *)

Context (parse : bytes -> option table) (variant : tval -> option string) (parse_addr : string -> option A) (home : path).
(** config.rs 279: the settings of the API in a text *)
Definition api_of (d : bytes) : option api_config := match parse d with Some t => option_map snd (de_config variant parse_addr api t) | None => None end.
(** The notations of toml and of addresses can be read again, as far as this configuration uses them. *)
Definition readable (c : config A) (a : api_config) : Prop :=
  (forall d, print (ser_config show_addr api c a) = Some d -> parse d = Some (ser_config show_addr api c a)) /\
  (forall x, In x (c_listen c) -> parse_addr (show_addr x) = Some x) /\ api_fits a /\ (api = false -> a = empty_api_config) /\
  c_api c = (length (ac_paths a) + length (ac_listen a) + length (ac_stream a))%nat.

(** A configuration that was committed is read again as it was, if none of its paths begins with `~/`. *)
Theorem C116_read_again_partial : forall w1 w2 c a f f', readable c a -> (forall p, In p (config_paths c) -> ~ tilde p) ->
  commit w1 w2 c a f = (f', Ok tt) -> is_file f (c_path c) = true \/ f (c_path c) = None ->
  load_config (toml_of parse variant parse_addr api) home (c_path c) f' = Some c /\
  exists d, contents f' (c_path c) = Some d /\ api_of d = Some a.
Proof.
  intros w1 w2 c a f f' (Rt & Ra & Fa & Na & Ca) P H R. destruct (C116_committed _ _ _ _ _ _ H R) as (d & Ed & Ef & _).
  assert (Cd : contents f' (c_path c) = Some d) by (unfold contents; now rewrite Ef).
  assert (De : de_config variant parse_addr api (ser_config show_addr api c a) = Some (with_path c "", a)).
  { change (ser_config show_addr api c a) with (ser_config show_addr api (with_path c "") a). apply C104_config_kept; auto. }
  assert (T : toml_of parse variant parse_addr api d = Some (with_path c "")) by (unfold toml_of; now rewrite (Rt _ Ed), De).
  split.
  - pose proof (load_plain parse (fun _ => d) variant parse_addr show_addr home api (with_path c "") (c_path c) f' Cd T P) as L.
    rewrite L. now destruct c.
  - exists d. split; [exact Cd|]. unfold api_of. now rewrite (Rt _ Ed), De.
Qed.

(** What was read from a file and committed is read again as it was: reading has replaced the home directory. *)
Theorem C116_stable : forall w1 w2 F c a f f', absolute home ->
  load_config (toml_of parse variant parse_addr api) home F f = Some c -> readable c a ->
  commit w1 w2 c a f = (f', Ok tt) ->
  load_config (toml_of parse variant parse_addr api) home F f' = Some c.
Proof.
  intros w1 w2 F c a f f' H L Rd Cm. destruct (loaded_plain _ _ _ _ _ H L) as (<- & P).
  apply (C116_read_again_partial w1 w2 c a f f' Rd P Cm). left. unfold load_config, contents in L. unfold is_file.
  destruct (f (c_path c)) as [[m x|m|m]|]; [reflexivity|discriminate L..].
Qed.
End Commit.

(** A configuration made of a secret and a public key and a port names these files in these roles, listens on the port on every
    address of both kinds, and has no peers; the ports are those added, in order. *)
Theorem C116_made : forall {A} (v4 v6 : N -> A) sk pk ports,
  let c := fold_left (fun c p => add_if_any v4 v6 p c) ports (from_sk_pk sk pk) in
  (exists k, c_keypair c = Some k /\ k_secret k = sk /\ k_public k = pk) /\
  c_listen c = flat_map (fun p => [v4 p; v6 p]) ports /\ c_peers c = [] /\ c_verbosity c = Quiet /\ c_api c = 0 /\ c_path c = "" /\
  c_keypair (config_empty (A := A)) = None.
Proof.
  intros A v4 v6 sk pk ports. cbn zeta.
  assert (K : forall (c : config A), let c' := fold_left (fun c p => add_if_any v4 v6 p c) ports c in
    c_keypair c' = c_keypair c /\ c_listen c' = c_listen c ++ flat_map (fun p => [v4 p; v6 p]) ports /\ c_peers c' = c_peers c /\
    c_verbosity c' = c_verbosity c /\ c_api c' = c_api c /\ c_path c' = c_path c).
  { induction ports as [|p ports IH]; intros c; cbn [fold_left flat_map]; cbn zeta; [rewrite app_nil_r; auto 10|].
    destruct (IH (add_if_any v4 v6 p c)) as (-> & -> & -> & -> & -> & ->). unfold add_if_any, with_listen. cbn [c_keypair c_listen c_peers c_verbosity c_api c_path].
    rewrite <- app_assoc. auto 10. }
  destruct (K (from_sk_pk sk pk)) as (-> & -> & -> & -> & -> & ->). split; [eexists; split; [reflexivity|]; auto|]. auto 10.
Qed.
Print Assumptions C116_committed.
Print Assumptions C116_nowhere.
Print Assumptions C116_interrupted.
Print Assumptions C116_lost_refuted.
Print Assumptions C116_emptied_refuted.
Print Assumptions C116_read_again_partial.
Print Assumptions C116_stable.
Print Assumptions C116_made.

Module Example116.
(** A file with the paths ~/pk and ~/sk, read with the home directory /h, is committed with /h/pk and /h/sk. *)
Definition c0 : config N := {| c_keypair := Some {| k_public := "~/pk"; k_secret := "~//sk" |}; c_listen := [7%N]; c_verbosity := Verbose; c_peers := [with_psk (with_public peer0 "p") (Some "~/psk")]; c_api := 1; c_path := "" |}.
Definition c1 : config N := {| c_keypair := Some {| k_public := "/h/pk"; k_secret := "/h/sk" |}; c_listen := [7%N]; c_verbosity := Verbose; c_peers := [with_psk (with_public peer0 "p") (Some "/h/psk")]; c_api := 1; c_path := "F" |}.
Definition a1 : api_config := {| ac_paths := ["/s"]; ac_listen := []; ac_stream := [] |}.
Definition show (n : N) : string := "x".
Definition addr (s : string) : option N := Some 7%N.
Definition t0 := ser_config show true c0 a1.
Definition t1 := ser_config show true c1 a1.
(** A toy notation of tables: one byte. *)
Definition print (t : table) : option bytes := Some [x31].
Definition parse (d : bytes) : option table := match d with [x31] => Some t1 | [x30] => Some t0 | _ => None end.
Definition f0 : fs := fset (fun _ => None) "F" (NFile 384 [x30]).
Definition toml := toml_of parse (fun v => match v with TStr s => Some s | _ => None end) addr true.

Example C116_nonvacuous : absolute "/h" /\ load_config toml "/h" "F" f0 = Some c1 /\ readable print show true parse addr c1 a1 /\
  (exists f', commit print show true 18 WAll WAll c1 a1 f0 = (f', Ok tt) /\ f' "F" = Some (NFile 384 [x31])) /\
  (exists f', commit print show true 18 WAll WAll c1 a1 (fun _ => None) = (f', Ok tt) /\ f' "F" = Some (NFile 420 [x31])).
Proof.
  split; [eexists; reflexivity|]. split; [vm_compute; reflexivity|]. split.
  - split; [intros d E; assert (d = [x31]) as -> by (unfold print in E; congruence); reflexivity|].
    split; [intros x [<-|[]]; reflexivity|]. split; [constructor; constructor|]. split; [discriminate|reflexivity].
  - split; eexists; (split; [reflexivity|vm_compute; reflexivity]).
Qed.
End Example116.
