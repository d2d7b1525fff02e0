(** C44, C47, C70, C71, C72, C73: the tool rp *)
From Coq Require Import Strings.Ascii Strings.String.
From Verif Require Import Base Files PFiles Config Rp.
Local Open Scope string_scope.
Local Open Scope list_scope.

(** * Directories *)

Lemma append_length a b : String.length (a ++ b)%string = (String.length a + String.length b)%nat.
Proof. induction a; cbn [String.append String.length]; [reflexivity|]. now rewrite IHa. Qed.
Lemma append_assoc a b c : ((a ++ b) ++ c)%string = (a ++ (b ++ c))%string.
Proof. induction a; cbn [String.append]; congruence. Qed.
Lemma append_inj a b c : (a ++ b = a ++ c)%string -> b = c.
Proof. induction a; cbn [String.append]; [auto|]. intros E. apply IHa. congruence. Qed.
Lemma join_length d n : (String.length d + String.length n <= String.length (join d n))%nat.
Proof. unfold join. destruct (_ || _); rewrite !append_length; lia. Qed.
Lemma join_inj d n m : join d n = join d m -> n = m.
Proof. unfold join. destruct (_ || _); [apply append_inj|]. intros E. apply append_inj in E. now apply (append_inj "/") in E. Qed.

Lemma leads_length rest : forall done q, In q (leads done rest) -> (String.length q <= String.length done + String.length rest)%nat.
Proof.
  induction rest as [|c r IH]; intros done q I; cbn [leads] in I.
  - destruct I as [<-|[]]. lia.
  - cbn [String.length]. destruct (Ascii.eqb c "/").
    + destruct I as [<-|I]; [lia|]. apply IH in I. rewrite append_length in I. cbn [String.length] in I. lia.
    + apply IH in I. rewrite append_length in I. cbn [String.length] in I. lia.
Qed.
Lemma leads_self rest : forall done, In (done ++ rest)%string (leads done rest).
Proof.
  induction rest as [|c r IH]; intros done; cbn [leads].
  - left. induction done; cbn [String.append]; congruence.
  - destruct (Ascii.eqb_spec c "/") as [->|].
    + right. specialize (IH (done ++ "/")%string). now rewrite append_assoc in IH.
    + specialize (IH (done ++ String c "")%string). now rewrite append_assoc in IH.
Qed.
Lemma prefixes_self p : p <> "" -> In p (prefixes p).
Proof. intros N. apply filter_In. split; [apply (leads_self p "")|]. now apply negb_true_iff, String.eqb_neq. Qed.
Lemma prefixes_join d n : n <> "" -> ~ In (join d n) (prefixes d).
Proof.
  intros N I. apply filter_In in I as [I _]. apply leads_length in I. pose proof (join_length d n). cbn [String.length] in I.
  destruct n; [congruence|]. cbn [String.length] in H. lia.
Qed.

Lemma mkdirs_cases can mode l : forall f q,
  fst (mkdirs can mode l f) q = f q \/ In q l /\ f q = None /\ fst (mkdirs can mode l f) q = Some (NDir mode).
Proof.
  induction l as [|p l IH]; intros f q; [now left|]. cbn [mkdirs]. destruct (f p) as [[m c|m|m]|] eqn:E; [now left| |now left|].
  - destruct (IH f q) as [->|(I & H)]; [now left|]. right. split; [now right|exact H].
  - destruct (can p); [|now left]. destruct (IH (fset f p (NDir mode)) q) as [->|(I & E1 & E2)].
    + destruct (String.eqb_spec q p) as [->|N]; [|left; now rewrite fset_other]. right. rewrite fset_same. split; [now left|auto].
    + right. split; [now right|]. split; [|exact E2]. unfold fset in E1. destruct (String.eqb q p); [discriminate|exact E1].
Qed.
Lemma mkdirs_keeps can mode l f q : f q <> None -> fst (mkdirs can mode l f) q = f q.
Proof. intros N. destruct (mkdirs_cases can mode l f q) as [->|(_ & E & _)]; [reflexivity|congruence]. Qed.
Lemma mkdirs_other can mode l f q : ~ In q l -> fst (mkdirs can mode l f) q = f q.
Proof. intros N. destruct (mkdirs_cases can mode l f q) as [->|(I & _)]; [reflexivity|contradiction]. Qed.
Lemma mkdirs_made can mode l : forall f, snd (mkdirs can mode l f) = true -> forall p, In p l -> exists m, fst (mkdirs can mode l f) p = Some (NDir m).
Proof.
  induction l as [|p l IH]; intros f S q I; [destruct I|]. cbn [mkdirs] in *. destruct (f p) as [[m c|m|m]|] eqn:E; try discriminate S.
  - destruct I as [<-|I]; [|auto]. exists m. rewrite mkdirs_keeps; congruence.
  - destruct (can p); [|discriminate S]. destruct I as [<-|I]; [|auto]. exists mode. rewrite mkdirs_keeps, fset_same; [reflexivity|]. rewrite fset_same. discriminate.
Qed.

(** * C44 *)

(** What genkey and pubkey write, if it is to go right, is found in directories that exist: nothing is in a directory that does not *)
Definition nothing_in (d : path) (f : fs) : Prop := forall n, n <> "" -> f (join d n) = None.

Lemma write_keeps umask mode w p d f q : f p = None -> f q <> None -> fst (write_file umask mode w p d f) q = f q.
Proof. intros E N. apply write_other. congruence. Qed.
Lemma b64_keeps mode umask size w p d f q : f p = None -> f q <> None -> fst (store_b64 mode umask size w p d f) q = f q.
Proof. intros E N. unfold store_b64. destruct (b64_encode size d); [now apply write_keeps|reflexivity]. Qed.
Lemma b64_other mode umask size w p d f q : q <> p -> fst (store_b64 mode umask size w p d f) q = f q.
Proof. intros N. unfold store_b64. destruct (b64_encode size d); [now apply write_other|reflexivity]. Qed.

Lemma make_keys_keeps umask w1 w2 w3 wgsk pqsk pqpk d (f : fs) q :
  f q <> None -> fst (make_keys umask w1 w2 w3 wgsk pqsk pqpk d f) q = f q.
Proof.
  intros N. unfold make_keys.
  assert (X : exists (f1 : fs) (ok : bool), (if exists_ f (join d "wgsk") then (f, true) else store_b64 M_SECRET umask WG_B64_LEN w1 (join d "wgsk") wgsk f) = (f1, ok) :> (fs * bool) /\ f1 q = f q).
  { unfold exists_. destruct (f (join d "wgsk")) eqn:E; [eauto|].
    pose proof (b64_keeps M_SECRET umask WG_B64_LEN w1 (join d "wgsk") wgsk f q E N) as H.
    destruct (store_b64 M_SECRET umask WG_B64_LEN w1 (join d "wgsk") wgsk f) as [f1 ok]. eauto. }
  destruct X as (f1 & ok & -> & E1). rewrite <- E1 in N. destruct ok; [|exact E1]. rewrite <- E1.
  unfold exists_. destruct (f1 (join d "pqsk")) eqn:Es; [reflexivity|]. destruct (f1 (join d "pqpk")) eqn:Ep; [reflexivity|]. cbn [negb andb].
  pose proof (write_keeps umask M_DEFAULT w2 (join d "pqpk") pqpk f1 q Ep N) as H. unfold store_public.
  destruct (write_file umask M_DEFAULT w2 (join d "pqpk") pqpk f1) as [f2 ok2] eqn:E2. cbn [fst] in H. destruct ok2; [|exact H].
  rewrite <- H. unfold store_secret. apply write_keeps; [|congruence].
  assert (O : f2 (join d "pqsk") = f1 (join d "pqsk")).
  { pose proof (write_other umask M_DEFAULT w2 (join d "pqpk") pqpk f1 (join d "pqsk")) as O. rewrite E2 in O. apply O. intros X. apply join_inj in X. discriminate. }
  now rewrite O.
Qed.

(** C44: nothing that exists is overwritten, wherever writing stops *)
Theorem C44_never_overwrites : forall umask can w1 w2 w3 wgsk pqsk pqpk d (f : fs) q,
  f q <> None -> fst (genkey umask can w1 w2 w3 wgsk pqsk pqpk d f) q = f q.
Proof.
  intros umask can w1 w2 w3 wgsk pqsk pqpk d f q N. unfold genkey. destruct (f d) as [n|].
  - destruct (st_mode n =? M_0700)%N; [now apply make_keys_keeps|reflexivity].
  - unfold mkdir_all. pose proof (mkdirs_keeps can (N.ldiff M_0700 umask) (prefixes d) f q N) as H.
    destruct (mkdirs can (N.ldiff M_0700 umask) (prefixes d) f) as [f1 ok]. cbn [fst] in H. destruct ok; [|exact H].
    rewrite make_keys_keeps; congruence.
Qed.
Print Assumptions C44_never_overwrites.

(** C44 fails: a directory that exists is refused, whatever its permissions are *)
Theorem C44_existing_refuted : forall umask can w1 w2 w3 wgsk pqsk pqpk d (f : fs) n,
  f d = Some n -> genkey umask can w1 w2 w3 wgsk pqsk pqpk d f = (f, false).
Proof.
  intros umask can w1 w2 w3 wgsk pqsk pqpk d f n E. unfold genkey. rewrite E.
  destruct (N.eqb_spec (st_mode n) M_0700) as [H|H]; [|reflexivity]. exfalso.
  assert (B : forall i, N.testbit (st_mode n) i = N.testbit M_0700 i) by (intros i; now rewrite H).
  destruct n; cbn [st_mode] in B; [specialize (B 15%N)|specialize (B 14%N)|specialize (B 12%N)]; rewrite N.lor_spec in B; discriminate B.
Qed.
Print Assumptions C44_existing_refuted.

Lemma write_new umask mode w p d f : f p = None ->
  write_file umask mode w p d f =
    match w with
    | WNoOpen => (f, false)
    | WStops n => (fset f p (NFile (N.ldiff mode umask) (firstn n d)), false)
    | WAll => (fset f p (NFile (N.ldiff mode umask) d), true)
    end.
Proof. intros E. unfold write_file. rewrite E. now destruct w. Qed.

Lemma make_keys_done umask w1 w2 w3 wgsk pqsk pqpk d f :
  nothing_in d f -> snd (make_keys umask w1 w2 w3 wgsk pqsk pqpk d f) = true ->
  (length (b64_text wgsk) <= WG_B64_LEN)%nat /\ w1 = WAll /\ w2 = WAll /\ w3 = WAll /\
  fst (make_keys umask w1 w2 w3 wgsk pqsk pqpk d f) =
    fset (fset (fset f (join d "wgsk") (NFile (N.ldiff M_SECRET umask) (b64_text wgsk)))
       (join d "pqpk") (NFile (N.ldiff M_DEFAULT umask) pqpk)) (join d "pqsk") (NFile (N.ldiff M_SECRET umask) pqsk).
Proof.
  intros I. unfold make_keys, exists_, store_b64, b64_encode, store_public, store_secret. rewrite (I "wgsk") by discriminate.
  destruct (Nat.leb_spec (length (b64_text wgsk)) WG_B64_LEN) as [L|L]; [|discriminate].
  assert (J : forall a b, a <> b -> join d a <> join d b) by (intros a b N X; apply join_inj in X; contradiction).
  rewrite (write_new umask M_SECRET w1 (join d "wgsk")) by (apply I; discriminate). destruct w1; try discriminate.
  rewrite !(fset_other _ (join d "wgsk")), (I "pqsk"), (I "pqpk") by (discriminate || (apply J; discriminate)). cbn [negb andb].
  rewrite (write_new umask M_DEFAULT w2 (join d "pqpk")) by (rewrite fset_other by (apply J; discriminate); apply I; discriminate). destruct w2; try discriminate.
  rewrite (write_new umask M_SECRET w3 (join d "pqsk")) by (rewrite !fset_other by (apply J; discriminate); apply I; discriminate). destruct w3; try discriminate.
  auto.
Qed.

Lemma nothing_in_mkdirs can umask mode d f : nothing_in d f -> nothing_in d (fst (mkdir_all can umask mode d f)).
Proof. intros I n N. unfold mkdir_all. rewrite mkdirs_other; [now apply I|]. now apply prefixes_join. Qed.

(** C44: if it reports success, the directory is there with a WireGuard key and with both keys of one pair; each is read back as it was made.
    Partial: that an existing directory is accepted and that it can be repeated is false, see [C44_existing_refuted] and
    [C44_interrupted_refuted] *)
Theorem C44_success_partial : forall umask can w1 w2 w3 wgsk pqsk pqpk d f f',
  nothing_in d f -> d <> "" -> wgsk <> [] ->
  genkey umask can w1 w2 w3 wgsk pqsk pqpk d f = (f', true) ->
  (exists m, f' d = Some (NDir m)) /\
  (forall junk out, length out = length wgsk -> load_b64 junk WG_B64_LEN out (join d "wgsk") f' = Some wgsk) /\
  load (N.of_nat (length pqsk)) (join d "pqsk") f' = Some pqsk /\
  load (N.of_nat (length pqpk)) (join d "pqpk") f' = Some pqpk.
Proof.
  intros umask can w1 w2 w3 wgsk pqsk pqpk d f f' I Nd Nw G.
  destruct (f d) as [n|] eqn:E; [rewrite (C44_existing_refuted _ _ _ _ _ _ _ _ _ _ _ E) in G; congruence|].
  unfold genkey in G. rewrite E in G. pose proof (nothing_in_mkdirs can umask M_0700 d f I) as I1.
  pose proof (mkdirs_made can (N.ldiff M_0700 umask) (prefixes d) f) as M. unfold mkdir_all in *.
  destruct (mkdirs can (N.ldiff M_0700 umask) (prefixes d) f) as [f1 ok]. cbn [fst snd] in *. destruct ok; [|congruence].
  destruct (M eq_refl d (prefixes_self d Nd)) as [m Em].
  assert (S : snd (make_keys umask w1 w2 w3 wgsk pqsk pqpk d f1) = true) by now rewrite G.
  destruct (make_keys_done _ _ _ _ _ _ _ _ _ I1 S) as (L & _ & _ & _ & Ef). rewrite G in Ef. cbn [fst] in Ef. subst f'.
  assert (Nj : forall n, n <> "" -> d <> join d n).
  { intros n N X. pose proof (join_length d n) as J. rewrite <- X in J. destruct n; [congruence|]. cbn [String.length] in J. lia. }
  split; [exists m; rewrite !fset_other by (apply Nj; discriminate); exact Em|].
  assert (J : forall a b, a <> b -> join d a <> join d b) by (intros a b N X; apply join_inj in X; contradiction).
  split; [|split].
  - intros junk out Lo. apply (C68_b64_loaded_partial junk WG_B64_LEN out (join d "wgsk") _ wgsk Nw).
    + unfold contents. rewrite !fset_other by (apply J; discriminate). now rewrite fset_same.
    + split; [split; [exact L|lia]|]. rewrite <- Lo, skipn_all, app_nil_r. reflexivity.
  - unfold load, contents. rewrite fset_same, N.eqb_refl. reflexivity.
  - unfold load, contents. rewrite fset_other, fset_same, N.eqb_refl by (apply J; discriminate). reflexivity.
Qed.
Print Assumptions C44_success_partial.

Lemma ldiff_private m umask : private m -> private (N.ldiff m umask).
Proof. intros P i L. rewrite N.ldiff_spec, P by assumption. reflexivity. Qed.
Lemma private_0600 : private M_SECRET.
Proof.
  intros i L. assert (E : i = 0%N \/ i = 1%N \/ i = 2%N \/ i = 3%N \/ i = 4%N \/ i = 5%N) by lia.
  destruct E as [->|[->|[->|[->|[->| ->]]]]]; reflexivity.
Qed.
Lemma private_0700 : private M_0700.
Proof.
  intros i L. assert (E : i = 0%N \/ i = 1%N \/ i = 2%N \/ i = 3%N \/ i = 4%N \/ i = 5%N) by lia.
  destruct E as [->|[->|[->|[->|[->| ->]]]]]; reflexivity.
Qed.

(** A path that nobody but the owner can use, or that is not there *)
Definition closed_at (f : fs) (p : path) : Prop :=
  match f p with Some (NFile m _) | Some (NDir m) => private m | Some (NOther _) => False | None => True end.

Lemma write_closed umask w p d f q : closed_at f q -> f p = None -> closed_at (fst (write_file umask M_SECRET w p d f)) q.
Proof.
  intros C E. unfold write_file. rewrite E. unfold closed_at in *.
  destruct w; cbn [fst]; [exact C|..]; (destruct (String.eqb_spec q p) as [->|N]; [rewrite fset_same; apply ldiff_private, private_0600|now rewrite fset_other]).
Qed.

(** C44: the new directory and both secret keys can be used by the owner only, wherever writing stops *)
Theorem C44_private : forall umask can w1 w2 w3 wgsk pqsk pqpk d (f : fs),
  f d = None -> nothing_in d f -> d <> "" ->
  let f' := fst (genkey umask can w1 w2 w3 wgsk pqsk pqpk d f) in
  closed_at f' d /\ closed_at f' (join d "wgsk") /\ closed_at f' (join d "pqsk").
Proof.
  intros umask can w1 w2 w3 wgsk pqsk pqpk d f E I Nd. cbv zeta. unfold genkey. rewrite E.
  pose proof (nothing_in_mkdirs can umask M_0700 d f I) as I1. pose proof (mkdirs_cases can (N.ldiff M_0700 umask) (prefixes d) f d) as M.
  unfold mkdir_all in *. destruct (mkdirs can (N.ldiff M_0700 umask) (prefixes d) f) as [f1 ok]. cbn [fst] in *.
  assert (C1 : closed_at f1 d).
  { unfold closed_at. destruct M as [->|(_ & _ & ->)]; [now rewrite E|]. apply ldiff_private, private_0700. }
  assert (C2 : forall n, n <> "" -> closed_at f1 (join d n)) by (intros n N; unfold closed_at; now rewrite I1).
  assert (Nj : forall n, n <> "" -> d <> join d n).
  { intros n N X. pose proof (join_length d n) as J. rewrite <- X in J. destruct n; [congruence|]. cbn [String.length] in J. lia. }
  assert (J : forall a b, a <> b -> join d a <> join d b) by (intros a b N X; apply join_inj in X; contradiction).
  destruct ok; [|cbn [fst]; auto using C2]. 2: { repeat split; [exact C1| |]; apply C2; discriminate. }
  unfold make_keys, exists_. rewrite (I1 "wgsk") by discriminate. unfold store_b64.
  destruct (b64_encode WG_B64_LEN wgsk) as [t|]; [|cbn [fst]; repeat split; [exact C1| |]; apply C2; discriminate].
  pose proof (write_other umask M_SECRET w1 (join d "wgsk") t f1) as O2.
  pose proof (write_closed umask w1 (join d "wgsk") t f1 (join d "wgsk") (C2 "wgsk" ltac:(discriminate)) (I1 "wgsk" ltac:(discriminate))) as W.
  destruct (write_file umask M_SECRET w1 (join d "wgsk") t f1) as [f2 ok2]. cbn [fst] in O2, W.
  assert (D1 : closed_at f2 d) by (unfold closed_at; rewrite O2 by (apply Nj; discriminate); exact C1).
  assert (D3 : f2 (join d "pqsk") = None) by (rewrite O2 by (apply J; discriminate); apply I1; discriminate).
  assert (D4 : f2 (join d "pqpk") = None) by (rewrite O2 by (apply J; discriminate); apply I1; discriminate).
  assert (D2 : closed_at f2 (join d "pqsk")) by (unfold closed_at; now rewrite D3).
  destruct ok2; [|cbn [fst]; auto]. rewrite D3, D4. cbn [negb andb]. unfold store_public, store_secret.
  pose proof (write_other umask M_DEFAULT w2 (join d "pqpk") pqpk f2) as O3.
  destruct (write_file umask M_DEFAULT w2 (join d "pqpk") pqpk f2) as [f3 ok3]. cbn [fst] in O3.
  assert (E1 : closed_at f3 d) by (unfold closed_at; rewrite O3 by (apply Nj; discriminate); exact D1).
  assert (E2 : closed_at f3 (join d "wgsk")) by (unfold closed_at; rewrite O3 by (apply J; discriminate); exact W).
  assert (E3 : f3 (join d "pqsk") = None) by (rewrite O3 by (apply J; discriminate); exact D3).
  assert (E4 : closed_at f3 (join d "pqsk")) by (unfold closed_at; now rewrite E3).
  destruct ok3; [|cbn [fst]; auto]. auto using write_closed.
Qed.
Print Assumptions C44_private.

(** C44 fails: it is not safe against interruptions.  Interrupted anywhere after the directory is made, it can never be completed: every
    further call fails and changes nothing. *)
Theorem C44_interrupted_refuted : forall umask can wgsk pqsk pqpk d (f : fs),
  (length (b64_text wgsk) <= WG_B64_LEN)%nat -> f d = None -> nothing_in d f -> d <> "" -> snd (mkdir_all can umask M_0700 d f) = true ->
  exists f', genkey umask can WAll WAll WNoOpen wgsk pqsk pqpk d f = (f', false) /\ contents f' (join d "pqpk") = Some pqpk /\ f' (join d "pqsk") = None /\
    forall umask can w1 w2 w3 wgsk pqsk pqpk, genkey umask can w1 w2 w3 wgsk pqsk pqpk d f' = (f', false).
Proof.
  intros umask can wgsk pqsk pqpk d f L E I Nd Ok1. unfold genkey at 1. rewrite E.
  pose proof (nothing_in_mkdirs can umask M_0700 d f I) as I1. pose proof (mkdirs_made can (N.ldiff M_0700 umask) (prefixes d) f) as M.
  unfold mkdir_all in *. destruct (mkdirs can (N.ldiff M_0700 umask) (prefixes d) f) as [f1 ok]. cbn [fst snd] in *. subst ok.
  destruct (M eq_refl d (prefixes_self d Nd)) as [m Em].
  assert (Nj : forall n, n <> "" -> d <> join d n).
  { intros n N X. pose proof (join_length d n) as J. rewrite <- X in J. destruct n; [congruence|]. cbn [String.length] in J. lia. }
  assert (J : forall a b, a <> b -> join d a <> join d b) by (intros a b N X; apply join_inj in X; contradiction).
  exists (fset (fset f1 (join d "wgsk") (NFile (N.ldiff M_SECRET umask) (b64_text wgsk))) (join d "pqpk") (NFile (N.ldiff M_DEFAULT umask) pqpk)).
  split; [|split; [unfold contents; now rewrite fset_same|split; [rewrite !fset_other by (apply J; discriminate); apply I1; discriminate|]]].
  - unfold make_keys, exists_, store_b64, b64_encode, store_public, store_secret. rewrite (I1 "wgsk") by discriminate. rewrite (proj2 (Nat.leb_le _ _) L).
    rewrite (write_new umask M_SECRET WAll (join d "wgsk")) by (apply I1; discriminate).
    rewrite !(fset_other _ (join d "wgsk")), (I1 "pqsk"), (I1 "pqpk") by (discriminate || (apply J; discriminate)). cbn [negb andb].
    rewrite (write_new umask M_DEFAULT WAll (join d "pqpk")) by (rewrite fset_other by (apply J; discriminate); apply I1; discriminate). reflexivity.
  - intros. apply (C44_existing_refuted umask0 can0 w1 w2 w3 wgsk0 pqsk0 pqpk0 d _ (NDir m)). rewrite !fset_other by (apply Nj; discriminate). exact Em.
Qed.
Print Assumptions C44_interrupted_refuted.

(** The case: an empty home directory; the second call is refused *)
Definition home_fs : fs := fun p => if String.eqb p "/home" then Some (NDir M_0700) else None.
Example C44_case :
  let '(f, ok) := genkey 18 (fun _ => true) WAll WAll WAll (repeat x41 32) [x53] [x50] "/home/keys" home_fs in
  ok = true /\ f "/home/keys" = Some (NDir M_0700) /\ f "/home/keys/pqsk" = Some (NFile M_SECRET [x53]) /\ f "/home/keys/pqpk" = Some (NFile M_PUBLIC [x50]) /\
  contents f "/home/keys/wgsk" = Some (list_byte_of_string "QUFBQUFBQUFBQUFBQUFBQUFBQUFBQUFBQUFBQUFBQUE=") /\
  genkey 18 (fun _ => true) WAll WAll WAll (repeat x41 32) [x53] [x50] "/home/keys" f = (f, false).
Proof. vm_compute. repeat split. Qed.

(** * C70 *)

Section Pubkey.
Variables (x25519 : bytes -> bytes) (junk : bytes -> bytes -> option bytes).

(** What pubkey has done when it stops, anywhere: directories were made, and one or both files have been begun *)
Lemma pubkey_eq rand umask can w1 w2 priv pub (f : fs) : f pub = None -> nothing_in pub f -> pub <> "" ->
  exists f1 ok, mkdir_all can umask M_0777 pub f = (f1, ok) /\
  (forall q, f q <> None -> f1 q = f q) /\ nothing_in pub f1 /\ (forall q, f1 q <> f q -> exists m, f1 q = Some (NDir m)) /\
  (ok = true -> exists m, f1 pub = Some (NDir m)) /\
  pubkey x25519 junk rand umask can w1 w2 priv pub f =
    if ok then
      match load_b64 junk WG_B64_LEN rand (join priv "wgsk") f with
      | Some wgsk =>
          if Nat.leb (length (b64_text (x25519 wgsk))) WG_B64_LEN then
            let new d := fset f1 (join pub "wgpk") (NFile (N.ldiff M_PUBLIC umask) d) in
            match w1 with
            | WNoOpen => (f1, false)
            | WStops n => (new (firstn n (b64_text (x25519 wgsk))), false)
            | WAll =>
                match f (join priv "pqpk") with
                | Some (NFile m d) =>
                    match w2 with
                    | WNoOpen => (new (b64_text (x25519 wgsk)), false)
                    | WStops n => (fset (new (b64_text (x25519 wgsk))) (join pub "pqpk") (NFile m (firstn n d)), false)
                    | WAll => (fset (new (b64_text (x25519 wgsk))) (join pub "pqpk") (NFile m d), true)
                    end
                | _ => (new (b64_text (x25519 wgsk)), false)
                end
            end
          else (f1, false)
      | None => (f1, false)
      end
    else (f1, false).
Proof.
  intros E I Nd. pose proof (nothing_in_mkdirs can umask M_0777 pub f I) as I1.
  pose proof (mkdirs_made can (N.ldiff M_0777 umask) (prefixes pub) f) as Md.
  pose proof (mkdirs_cases can (N.ldiff M_0777 umask) (prefixes pub) f) as C. unfold pubkey, mkdir_all in *.
  destruct (mkdirs can (N.ldiff M_0777 umask) (prefixes pub) f) as [f1 ok]. cbn [fst snd] in *. exists f1, ok. split; [reflexivity|].
  assert (K : forall q, f q <> None -> f1 q = f q) by (intros q N; destruct (C q) as [->|(_ & X & _)]; [reflexivity|congruence]).
  split; [exact K|]. split; [exact I1|].
  assert (Ch : forall q, f1 q <> f q -> exists m, f1 q = Some (NDir m)) by (intros q N; destruct (C q) as [X|(_ & _ & ->)]; [contradiction|eauto]).
  split; [exact Ch|]. split; [intros ->; now apply Md, prefixes_self|].
  unfold exists_. rewrite E. destruct ok; [|reflexivity].
  assert (Lo : load_b64 junk WG_B64_LEN rand (join priv "wgsk") f1 = load_b64 junk WG_B64_LEN rand (join priv "wgsk") f).
  { unfold load_b64, contents. destruct (f (join priv "wgsk")) as [n|] eqn:En; [rewrite K by congruence; now rewrite En|].
    destruct (C (join priv "wgsk")) as [->|(_ & _ & ->)]; [now rewrite En|reflexivity]. }
  rewrite Lo. destruct (load_b64 junk WG_B64_LEN rand (join priv "wgsk") f) as [wgsk|]; [|reflexivity].
  unfold store_b64, b64_encode. destruct (Nat.leb (length (b64_text (x25519 wgsk))) WG_B64_LEN); [|reflexivity].
  rewrite (write_new umask M_PUBLIC w1 (join pub "wgpk")) by (apply I1; discriminate). destruct w1; [reflexivity..|]. cbv zeta.
  unfold copy_file.
  assert (J : join pub "pqpk" <> join pub "wgpk") by (intros X; apply join_inj in X; discriminate).
  set (g := fset f1 (join pub "wgpk") (NFile (N.ldiff M_PUBLIC umask) (b64_text (x25519 wgsk)))).
  assert (G : g (join pub "pqpk") = None) by (unfold g; rewrite fset_other by exact J; apply I1; discriminate). rewrite G.
  destruct (String.eqb_spec (join priv "pqpk") (join pub "wgpk")) as [X|X].
  - exfalso. clear -X. assert (Suf : forall d n, n <> "" -> exists h, join d n = (h ++ n)%string).
    { intros d n _. unfold join. destruct (_ || _); [now exists d|]. exists (d ++ "/")%string. now rewrite append_assoc. }
    destruct (Suf priv "pqpk" ltac:(discriminate)) as [h1 E1], (Suf pub "wgpk" ltac:(discriminate)) as [h2 E2]. rewrite E1, E2 in X. clear -X.
    assert (L : String.length h1 = String.length h2).
    { apply (f_equal String.length) in X. rewrite !append_length in X. cbn [String.length] in X. lia. }
    revert h2 X L. induction h1 as [|c h1 IH]; intros [|c2 h2] X L; try discriminate L; cbn [String.append] in X; [discriminate X|].
    apply (IH h2); [congruence|]. cbn [String.length] in L. lia.
  - assert (Gp : g (join priv "pqpk") = f1 (join priv "pqpk")) by (unfold g; now rewrite fset_other). rewrite Gp.
    destruct (f (join priv "pqpk")) as [n|] eqn:En.
    + rewrite K, En by congruence. destruct n as [m d|m|m]; [|reflexivity..]. now destruct w2.
    + destruct (C (join priv "pqpk")) as [->|(_ & _ & ->)]; [now rewrite En|reflexivity].
Qed.

(** C70: if it succeeds, the new directory holds the public key of the WireGuard key, as the text that WireGuard reads, and the public key of
    the private directory.  Partial: after a failure it cannot be run again, see [C70_retry_refuted] *)
Theorem C70_exports_partial : forall rand umask can w1 w2 priv pub (f f' : fs),
  nothing_in pub f -> pub <> "" ->
  pubkey x25519 junk rand umask can w1 w2 priv pub f = (f', true) ->
  f pub = None /\ (exists m, f' pub = Some (NDir m)) /\
  exists wgsk pqpk, load_b64 junk WG_B64_LEN rand (join priv "wgsk") f = Some wgsk /\ contents f (join priv "pqpk") = Some pqpk /\
    contents f' (join pub "wgpk") = Some (b64_text (x25519 wgsk)) /\ contents f' (join pub "pqpk") = Some pqpk.
Proof.
  intros rand umask can w1 w2 priv pub f f' I Nd P.
  destruct (f pub) as [n|] eqn:E; [unfold pubkey, exists_ in P; rewrite E in P; congruence|]. split; [reflexivity|].
  destruct (pubkey_eq rand umask can w1 w2 priv pub f E I Nd) as (f1 & ok & _ & K & I1 & _ & Md & Eq). rewrite Eq in P. clear Eq.
  destruct ok; [|congruence]. destruct (Md eq_refl) as [md Emd].
  destruct (load_b64 junk WG_B64_LEN rand (join priv "wgsk") f) as [wgsk|]; [|congruence].
  destruct (Nat.leb (length (b64_text (x25519 wgsk))) WG_B64_LEN); [|congruence]. cbv zeta in P. destruct w1; try congruence.
  unfold contents at 1. destruct (f (join priv "pqpk")) as [[m d|m|m]|]; try congruence. destruct w2; try congruence.
  assert (F : f' = fset (fset f1 (join pub "wgpk") (NFile (N.ldiff M_PUBLIC umask) (b64_text (x25519 wgsk)))) (join pub "pqpk") (NFile m d)) by congruence. subst f'.
  assert (Nj : forall n, n <> "" -> pub <> join pub n).
  { intros n N X. pose proof (join_length pub n) as J. rewrite <- X in J. destruct n; [congruence|]. cbn [String.length] in J. lia. }
  split; [exists md; rewrite !fset_other by (apply Nj; discriminate); exact Emd|].
  exists wgsk, d. split; [reflexivity|]. split; [reflexivity|]. unfold contents. rewrite fset_same. split; [|reflexivity].
  rewrite fset_other by (intros X; apply join_inj in X; discriminate). now rewrite fset_same.
Qed.

(** C70: wherever it stops, nothing that existed is changed; what is new are directories, the public key or a beginning of it, and the
    copy or a beginning of it.  No part of a secret key is written. *)
Theorem C70_only_public : forall rand umask can w1 w2 priv pub (f : fs) q,
  nothing_in pub f -> pub <> "" ->
  let f' := fst (pubkey x25519 junk rand umask can w1 w2 priv pub f) in
  f' q = f q \/
  f q = None /\
   ((exists m, f' q = Some (NDir m)) \/
    (exists m wgsk n, q = join pub "wgpk" /\ load_b64 junk WG_B64_LEN rand (join priv "wgsk") f = Some wgsk /\ f' q = Some (NFile m (firstn n (b64_text (x25519 wgsk))))) \/
    (exists m pqpk n, q = join pub "pqpk" /\ f (join priv "pqpk") = Some (NFile m pqpk) /\ f' q = Some (NFile m (firstn n pqpk)))).
Proof.
  intros rand umask can w1 w2 priv pub f q I Nd. cbv zeta.
  destruct (f pub) as [n|] eqn:E; [left; unfold pubkey, exists_; now rewrite E|].
  destruct (pubkey_eq rand umask can w1 w2 priv pub f E I Nd) as (f1 & ok & _ & K & I1 & Ch & _ & Eq). rewrite Eq. clear Eq.
  assert (D : f1 q = f q \/ f q = None /\ exists m, f1 q = Some (NDir m)).
  { destruct (f q) as [n|] eqn:Eq; [left; rewrite K by congruence; congruence|]. destruct (f1 q) as [n|] eqn:Eq1; [|now left].
    right. split; [reflexivity|]. destruct (Ch q ltac:(congruence)) as [m H]. exists m. congruence. }
  assert (D' : f1 q = f q \/ f q = None /\
   ((exists m, f1 q = Some (NDir m)) \/
    (exists m wgsk n, q = join pub "wgpk" /\ load_b64 junk WG_B64_LEN rand (join priv "wgsk") f = Some wgsk /\ f1 q = Some (NFile m (firstn n (b64_text (x25519 wgsk))))) \/
    (exists m pqpk n, q = join pub "pqpk" /\ f (join priv "pqpk") = Some (NFile m pqpk) /\ f1 q = Some (NFile m (firstn n pqpk))))) by (destruct D as [D|[D1 D2]]; auto).
  destruct ok; [|exact D'].
  destruct (load_b64 junk WG_B64_LEN rand (join priv "wgsk") f) as [wgsk|] eqn:Lw; [|exact D'].
  destruct (Nat.leb (length (b64_text (x25519 wgsk))) WG_B64_LEN); [|exact D']. cbv zeta.
  assert (W : forall n (g : fs), (forall x, g x = fset f1 (join pub "wgpk") (NFile (N.ldiff M_PUBLIC umask) (firstn n (b64_text (x25519 wgsk)))) x) ->
     g q = f q \/ f q = None /\ ((exists m, g q = Some (NDir m)) \/
      (exists m wgsk' n, q = join pub "wgpk" /\ Some wgsk = Some wgsk' /\ g q = Some (NFile m (firstn n (b64_text (x25519 wgsk'))))) \/
      (exists m pqpk n, q = join pub "pqpk" /\ f (join priv "pqpk") = Some (NFile m pqpk) /\ g q = Some (NFile m (firstn n pqpk))))).
  { intros n g G. rewrite G. destruct (String.eqb_spec q (join pub "wgpk")) as [->|N]; [|rewrite fset_other by exact N; destruct D as [D|[D1 D2]]; auto].
    right. split; [apply I; discriminate|]. right; left. exists (N.ldiff M_PUBLIC umask), wgsk, n. rewrite fset_same. auto. }
  destruct w1 as [|n|]; [exact D'|now apply (W n)|].
  assert (Wa : forall x, fset f1 (join pub "wgpk") (NFile (N.ldiff M_PUBLIC umask) (b64_text (x25519 wgsk))) x =
     fset f1 (join pub "wgpk") (NFile (N.ldiff M_PUBLIC umask) (firstn (length (b64_text (x25519 wgsk))) (b64_text (x25519 wgsk)))) x) by now rewrite firstn_all.
  destruct (f (join priv "pqpk")) as [[m d|m|m]|] eqn:Ep; [|exact (W _ _ Wa)..].
  assert (P : forall n (g : fs), (forall x, g x = fset (fset f1 (join pub "wgpk") (NFile (N.ldiff M_PUBLIC umask) (b64_text (x25519 wgsk)))) (join pub "pqpk") (NFile m (firstn n d)) x) ->
     g q = f q \/ f q = None /\ ((exists m, g q = Some (NDir m)) \/
      (exists m wgsk' n, q = join pub "wgpk" /\ Some wgsk = Some wgsk' /\ g q = Some (NFile m (firstn n (b64_text (x25519 wgsk'))))) \/
      (exists m' pqpk n, q = join pub "pqpk" /\ Some (NFile m d) = Some (NFile m' pqpk) /\ g q = Some (NFile m' (firstn n pqpk))))).
  { intros n g G. destruct (String.eqb_spec q (join pub "pqpk")) as [->|N].
    - right. split; [apply I; discriminate|]. right; right. exists m, d, n. rewrite G, fset_same. auto.
    - destruct (W _ _ Wa) as [H|[H1 H2]]; rewrite G, fset_other by exact N; [now left|right; split; [exact H1|exact H2]]. }
  destruct w2 as [|n|]; [exact (W _ _ Wa)|now apply (P n)|]. apply (P (length d)). intros x. now rewrite firstn_all.
Qed.

(** C70: a directory, or anything else, that exists is refused *)
Theorem C70_existing : forall rand umask can w1 w2 priv pub (f : fs),
  f pub <> None -> pubkey x25519 junk rand umask can w1 w2 priv pub f = (f, false).
Proof. intros rand umask can w1 w2 priv pub f N. unfold pubkey, exists_. destruct (f pub); [reflexivity|contradiction]. Qed.

(** C70 fails: a call for private keys that do not exist leaves an empty directory behind; when the keys have been made, the same call is refused *)
Theorem C70_retry_refuted : forall rand umask can w1 w2 priv pub (f : fs),
  f pub = None -> nothing_in pub f -> pub <> "" -> f (join priv "wgsk") = None -> snd (mkdir_all can umask 511%N pub f) = true ->
  exists f1, pubkey x25519 junk rand umask can w1 w2 priv pub f = (f1, false) /\ (exists m, f1 pub = Some (NDir m)) /\ nothing_in pub f1 /\
  forall f2 : fs, (forall q, f1 q <> None -> f2 q = f1 q) -> forall rand w1 w2, pubkey x25519 junk rand umask can w1 w2 priv pub f2 = (f2, false).
Proof.
  intros rand umask can w1 w2 priv pub f E I Nd Nk M. change 511%N with M_0777 in M.
  destruct (pubkey_eq rand umask can w1 w2 priv pub f E I Nd) as (f1 & ok & E1 & K & I1 & _ & Md & Eq). rewrite E1 in M. cbn [snd] in M. subst ok.
  exists f1. rewrite Eq. unfold load_b64, contents at 1. rewrite Nk. split; [reflexivity|]. destruct (Md eq_refl) as [m Em]. split; [eauto|]. split; [exact I1|].
  intros f2 F r v1 v2. apply C70_existing. rewrite F; congruence.
Qed.

(** C44, C70: keys that were made are exported: the public keys belong to the secret ones *)
Theorem C70_pair : forall rand umask can can' w1 w2 w3 v1 v2 wgsk pqsk pqpk priv pub (f f1 f2 : fs),
  nothing_in priv f -> priv <> "" -> nothing_in pub f1 -> pub <> "" -> wgsk <> [] -> length rand = length wgsk ->
  genkey umask can w1 w2 w3 wgsk pqsk pqpk priv f = (f1, true) ->
  pubkey x25519 junk rand umask can' v1 v2 priv pub f1 = (f2, true) ->
  contents f2 (join pub "wgpk") = Some (b64_text (x25519 wgsk)) /\ contents f2 (join pub "pqpk") = Some pqpk /\
  contents f2 (join priv "pqsk") = Some pqsk.
Proof.
  intros rand umask can can' w1 w2 w3 v1 v2 wgsk pqsk pqpk priv pub f f1 f2 I N I' N' Nw L G P.
  destruct (C44_success_partial _ _ _ _ _ _ _ _ _ _ _ I N Nw G) as (_ & Lw & Ls & Lp).
  destruct (C70_exports_partial _ _ _ _ _ _ _ _ _ I' N' P) as (_ & _ & w & p & Ew & Ep & C1 & C2). rewrite Lw in Ew by exact L.
  assert (w = wgsk) by congruence. subst w. unfold load in Lp. rewrite Ep in Lp. destruct (_ =? _)%N in Lp; [|discriminate]. assert (p = pqpk) by congruence. subst p.
  split; [exact C1|]. split; [exact C2|]. unfold load in Ls. unfold contents in *.
  destruct (f1 (join priv "pqsk")) as [[m d|m|m]|] eqn:Es; try discriminate Ls. destruct (_ =? _)%N in Ls; [|discriminate].
  destruct (C70_only_public rand umask can' v1 v2 priv pub f1 (join priv "pqsk") I' N') as [H|[H _]]; [|congruence].
  rewrite P in H. cbn [fst] in H. rewrite H, Es. congruence.
Qed.
End Pubkey.
Print Assumptions C70_exports_partial.
Print Assumptions C70_only_public.
Print Assumptions C70_existing.
Print Assumptions C70_retry_refuted.
Print Assumptions C70_pair.

(** The case of [C70_pair] *)
Example C70_case :
  let '(f1, ok1) := genkey 18 (fun _ => true) WAll WAll WAll (repeat x41 32) [x53] [x50] "/home/keys" home_fs in
  let '(f2, ok2) := pubkey (fun _ => repeat x42 32) (fun _ _ => None) (repeat x00 32) 18 (fun _ => true) WAll WAll "/home/keys" "/home/pub" f1 in
  ok1 = true /\ ok2 = true /\ f2 "/home/pub/pqpk" = Some (NFile M_PUBLIC [x50]) /\
  contents f2 "/home/pub/wgpk" = Some (list_byte_of_string "QkJCQkJCQkJCQkJCQkJCQkJCQkJCQkJCQkJCQkJCQkI=").
Proof. vm_compute. repeat split. Qed.
Example home_nothing_in : nothing_in "/home/keys" home_fs.
Proof.
  intros n N. unfold home_fs. destruct (String.eqb_spec (join "/home/keys" n) "/home") as [E|]; [|reflexivity].
  apply (f_equal String.length) in E. pose proof (join_length "/home/keys" n) as J. rewrite E in J. cbn [String.length] in J. lia.
Qed.

(** * C47 *)

(** What can be said on the command line of `rp` *)
Inductive popt := PEndpoint (v : string) | PKeepalive (v : string) | PIps (v : string).
Inductive oopt := ODev (v : string) | OIp (v : string) | OListen (v : string).
Record xline := { l_dir : path; l_opts : list oopt; l_peers : list (path * list popt) }.
Inductive item := IVerbose | IExplain | IHelp | IGenKey (d : path) | IPubKey (d p : path) | IConfig (c : path) | IExchange (l : xline).
Definition popt_words (o : popt) : list string :=
  match o with PEndpoint v => ["endpoint"; v] | PKeepalive v => ["persistent-keepalive"; v] | PIps v => ["allowed-ips"; v] end.
Definition oopt_words (o : oopt) : list string := match o with ODev v => ["dev"; v] | OIp v => ["ip"; v] | OListen v => ["listen"; v] end.
Definition peer_words (p : path * list popt) : list string := "peer" :: fst p :: flat_map popt_words (snd p).
Definition line_words (l : xline) : list string := l_dir l :: flat_map oopt_words (l_opts l) ++ flat_map peer_words (l_peers l).
Definition item_words (i : item) : list string :=
  match i with
  | IVerbose => ["verbose"] | IExplain => ["explain"] | IHelp => ["help"]
  | IGenKey d => ["genkey"; d] | IPubKey d p => ["pubkey"; d; p] | IConfig c => ["exchange-config"; c]
  | IExchange l => "exchange" :: line_words l
  end.
Definition rp_words (l : list item) : list string := flat_map item_words l.

Section Line.
Variable sockaddr : string -> option addr.
Variable u32 : string -> option N.

(** The value that holds is the one that was given last *)
Definition latest {A B} (pick : A -> option B) (l : list A) (v : option B) : Prop :=
  match v with
  | Some b => exists l1 a l2, l = l1 ++ a :: l2 /\ pick a = Some b /\ Forall (fun a => pick a = None) l2
  | None => Forall (fun a => pick a = None) l
  end.
Definition peer_right (p : path * list popt) : Prop :=
  forall o, In o (snd p) -> match o with PEndpoint v => sockaddr v <> None | PKeepalive v => u32 v <> None | PIps _ => True end.
Definition line_right (l : xline) : Prop :=
  (forall v, In (OListen v) (l_opts l) -> sockaddr v <> None) /\ Forall peer_right (l_peers l).
Definition peer_says (p : path * list popt) (x : xpeer) : Prop :=
  x_dir x = fst p /\ x_v03 x = false /\
  latest (fun o => match o with PEndpoint v => sockaddr v | _ => None end) (snd p) (x_endpoint x) /\
  latest (fun o => match o with PKeepalive v => u32 v | _ => None end) (snd p) (x_keepalive x) /\
  latest (fun o => match o with PIps v => Some v | _ => None end) (snd p) (x_ips x).
Definition line_says (l : xline) (o : xopts) : Prop :=
  o_dir o = l_dir l /\ o_verbose o = false /\
  latest (fun o => match o with ODev v => Some v | _ => None end) (l_opts l) (o_dev o) /\
  latest (fun o => match o with OIp v => Some v | _ => None end) (l_opts l) (o_ip o) /\
  latest (fun o => match o with OListen v => sockaddr v | _ => None end) (l_opts l) (o_listen o) /\
  Forall2 peer_says (l_peers l) (o_peers o).

(** A command that asks for something to be done; "help" is none, but counts as one for the words behind it *)
Definition names (i : item) : bool := match i with IVerbose | IExplain => false | _ => true end.
(** A sensible line: there is a command; it is the only one, but "help" may follow; all words behind "exchange" belong to it *)
Definition rp_right (l : list item) : Prop :=
  (exists i, In i l /\ names i = true) /\
  (forall l1 i l2, l = l1 ++ i :: l2 -> names i = true -> i <> IHelp -> forall j, In j l1 -> names j = false) /\
  (forall l1 x l2, l = l1 ++ IExchange x :: l2 -> l2 = [] /\ line_right x).
Definition item_says (i : item) (c : rp_command) : Prop :=
  match i with
  | IVerbose | IExplain => False
  | IHelp => c = RHelp
  | IGenKey d => c = RGenKey d
  | IPubKey d p => c = RPubKey d p
  | IConfig f => c = RExchangeConfig f
  | IExchange l => exists o, c = RExchange o /\ line_says l o
  end.
(** What is done is what the last command says *)
Definition rp_says (l : list item) (c : cli) : Prop :=
  (cl_verbose c = true <-> In IVerbose l) /\
  exists l1 i l2 x, l = l1 ++ i :: l2 /\ names i = true /\ (forall j, In j l2 -> names j = false) /\ cl_command c = Some x /\ item_says i x.

(** Options of one peer: the value, the last one given or the one there was before *)
Definition fold_latest {A B} (pick : A -> option B) (l : list A) (v : option B) : option B :=
  fold_left (fun v a => match pick a with Some b => Some b | None => v end) l v.
Lemma fold_latest_is {A B} (pick : A -> option B) l : latest pick l (fold_latest pick l None).
Proof.
  assert (H : forall v, match fold_latest pick l v with
     | Some b => (v = Some b /\ Forall (fun a => pick a = None) l) \/ exists l1 a l2, l = l1 ++ a :: l2 /\ pick a = Some b /\ Forall (fun a => pick a = None) l2
     | None => v = None /\ Forall (fun a => pick a = None) l end).
  { induction l as [|a l IH]; intros v; cbn [fold_latest fold_left]; [destruct v; auto|].
    change (fold_left (fun v0 a0 => match pick a0 with Some b => Some b | None => v0 end) l ?x) with (fold_latest pick l x).
    destruct (pick a) as [b|] eqn:E.
    - specialize (IH (Some b)). destruct (fold_latest pick l (Some b)) as [c|]; [|destruct IH; discriminate].
      right. destruct IH as [[Eb F]|(l1 & a' & l2 & -> & E' & F)]; [exists [], a, l; repeat split; [congruence|exact F]|exists (a :: l1), a', l2; auto].
    - specialize (IH v). destruct (fold_latest pick l v) as [c|].
      + destruct IH as [[Eb F]|(l1 & a' & l2 & -> & E' & F)]; [left; split; [exact Eb|now constructor]|right; exists (a :: l1), a', l2; auto].
      + destruct IH as [Ev F]. split; [exact Ev|now constructor]. }
  specialize (H None). unfold latest. destruct (fold_latest pick l None); [destruct H as [[X _]|H]; [discriminate|exact H]|exact (proj2 H)].
Qed.
Lemma latest_inj {A B} (pick : A -> option B) l v w : latest pick l v -> latest pick l w -> v = w.
Proof.
  assert (X : forall l1 (a : A) l2 l3 b l4, l1 ++ a :: l2 = l3 ++ b :: l4 -> Forall (fun a => pick a = None) l2 -> pick b <> None -> Forall (fun a => pick a = None) l4 -> pick a <> None -> a = b).
  { induction l1 as [|x l1 IH]; intros a l2 [|y l3] b l4 E F Nb F4 Na; cbn [List.app] in E.
    - congruence.
    - exfalso. assert (l2 = l3 ++ b :: l4) by congruence. subst l2. apply Forall_app in F as [_ F]. inversion F; congruence.
    - exfalso. assert (l4 = l1 ++ a :: l2) by congruence. subst l4. apply Forall_app in F4 as [_ F4]. inversion F4; congruence.
    - apply (IH a l2 l3 b l4); auto; congruence. }
  unfold latest. destruct v as [v|], w as [w|]; intros H1 H2.
  - destruct H1 as (l1 & a & l2 & -> & E1 & F1), H2 as (l3 & b & l4 & E & E2 & F2).
    assert (a = b) by (apply (X l1 a l2 l3 b l4); auto; congruence). congruence.
  - destruct H1 as (l1 & a & l2 & -> & E1 & F1). apply Forall_app in H2 as [_ F]. inversion F; congruence.
  - destruct H2 as (l1 & a & l2 & -> & E1 & F1). apply Forall_app in H1 as [_ F]. inversion F; congruence.
  - reflexivity.
Qed.

(** The parser of a peer's options, as a fold *)
Definition popts_result (p : xpeer) (l : list popt) : xpeer :=
  {| x_dir := x_dir p;
     x_endpoint := fold_latest (fun o => match o with PEndpoint v => sockaddr v | _ => None end) l (x_endpoint p);
     x_keepalive := fold_latest (fun o => match o with PKeepalive v => u32 v | _ => None end) l (x_keepalive p);
     x_ips := fold_latest (fun o => match o with PIps v => Some v | _ => None end) l (x_ips p); x_v03 := x_v03 p |}.
Definition popt_ok (o : popt) : Prop := match o with PEndpoint v => sockaddr v <> None | PKeepalive v => u32 v <> None | PIps _ => True end.
Definition at_peer (rest : list string) : Prop := rest = [] \/ exists r, rest = "peer" :: r.

Lemma peer_opts_complete l : Forall popt_ok l -> forall p rest, at_peer rest ->
  peer_opts sockaddr u32 p (flat_map popt_words l ++ rest) = Ok (popts_result p l, rest).
Proof.
  induction l as [|o l IH]; intros F p rest R.
  - cbn [flat_map List.app]. assert (E : popts_result p [] = p) by now destruct p. rewrite E. destruct R as [->|[r ->]]; reflexivity.
  - inversion F as [|? ? Ho Fl]; subst. destruct o as [v|v|v]; cbn [flat_map popt_words List.app peer_opts String.eqb Ascii.eqb Bool.eqb]; cbn [popt_ok] in Ho.
    + destruct (sockaddr v) as [a|] eqn:E; [|contradiction]. rewrite IH by assumption. unfold popts_result, fold_latest.
      cbn [fold_left x_dir x_endpoint x_keepalive x_ips x_v03]. rewrite E. reflexivity.
    + destruct (u32 v) as [a|] eqn:E; [|contradiction]. rewrite IH by assumption. unfold popts_result, fold_latest.
      cbn [fold_left x_dir x_endpoint x_keepalive x_ips x_v03]. rewrite E. reflexivity.
    + rewrite IH by assumption. reflexivity.
Qed.
Lemma peer_opts_sound args : forall n p r, (length args <= n)%nat -> peer_opts sockaddr u32 p args = r ->
  match r with
  | Ok (x, rest) => exists l, args = flat_map popt_words l ++ rest /\ Forall popt_ok l /\ at_peer rest /\ x = popts_result p l
  | Err _ => True
  | Panic => False
  end.
Proof.
  intros n. revert args. induction n as [|n IH]; intros args p r L <-.
  - destruct args; [|cbn [length] in L; lia]. cbn [peer_opts]. exists []. repeat split; [constructor|now left|now destruct p].
  - destruct args as [|x rest]; [cbn [peer_opts]; exists []; repeat split; [constructor|now left|now destruct p]|]. cbn [peer_opts]. cbn [length] in L.
    destruct (String.eqb_spec x "peer") as [->|_]; [exists []; repeat split; [constructor|right; eauto|now destruct p]|].
    destruct (String.eqb_spec x "endpoint") as [->|_].
    { destruct rest as [|v rest]; [exact I|]. destruct (sockaddr v) as [a|] eqn:E; [|exact I]. cbn [length] in L.
      specialize (IH rest {| x_dir := x_dir p; x_endpoint := Some a; x_keepalive := x_keepalive p; x_ips := x_ips p; x_v03 := x_v03 p |} _ ltac:(lia) eq_refl).
      destruct (peer_opts sockaddr u32 _ rest) as [[x r]| |]; [|exact I|exact IH]. destruct IH as (l & -> & F & R & ->).
      exists (PEndpoint v :: l). split; [reflexivity|]. split; [constructor; [cbn [popt_ok]; congruence|exact F]|]. split; [exact R|].
      unfold popts_result, fold_latest. cbn [fold_left x_dir x_endpoint x_keepalive x_ips x_v03]. now rewrite E. }
    destruct (String.eqb_spec x "persistent-keepalive") as [->|_].
    { destruct rest as [|v rest]; [exact I|]. destruct (u32 v) as [a|] eqn:E; [|exact I]. cbn [length] in L.
      specialize (IH rest {| x_dir := x_dir p; x_endpoint := x_endpoint p; x_keepalive := Some a; x_ips := x_ips p; x_v03 := x_v03 p |} _ ltac:(lia) eq_refl).
      destruct (peer_opts sockaddr u32 _ rest) as [[x r]| |]; [|exact I|exact IH]. destruct IH as (l & -> & F & R & ->).
      exists (PKeepalive v :: l). split; [reflexivity|]. split; [constructor; [cbn [popt_ok]; congruence|exact F]|]. split; [exact R|].
      unfold popts_result, fold_latest. cbn [fold_left x_dir x_endpoint x_keepalive x_ips x_v03]. now rewrite E. }
    destruct (String.eqb_spec x "allowed-ips") as [->|_]; [|exact I].
    destruct rest as [|v rest]; [exact I|]. cbn [length] in L.
    specialize (IH rest {| x_dir := x_dir p; x_endpoint := x_endpoint p; x_keepalive := x_keepalive p; x_ips := Some v; x_v03 := x_v03 p |} _ ltac:(lia) eq_refl).
    destruct (peer_opts sockaddr u32 _ rest) as [[x r]| |]; [|exact I|exact IH]. destruct IH as (l & -> & F & R & ->).
    exists (PIps v :: l). split; [reflexivity|]. split; [constructor; [exact I|exact F]|]. split; [exact R|]. reflexivity.
Qed.

Lemma popts_says d l : peer_says (d, l) (popts_result (xpeer0 d) l).
Proof. repeat split; apply fold_latest_is. Qed.

(** The options before the peers *)
Definition oopts_result (o : xopts) (l : list oopt) : xopts :=
  o_with o (fold_latest (fun o => match o with ODev v => Some v | _ => None end) l (o_dev o))
    (fold_latest (fun o => match o with OIp v => Some v | _ => None end) l (o_ip o))
    (fold_latest (fun o => match o with OListen v => sockaddr v | _ => None end) l (o_listen o)) (o_peers o).
Definition oopt_ok (o : oopt) : Prop := match o with OListen v => sockaddr v <> None | _ => True end.
Definition line_result (o : xopts) (l : list oopt) (ps : list (path * list popt)) : xopts :=
  o_with (oopts_result o l) (o_dev (oopts_result o l)) (o_ip (oopts_result o l)) (o_listen (oopts_result o l))
    (o_peers o ++ map (fun p => popts_result (xpeer0 (fst p)) (snd p)) ps).

Lemma peers_at ps : at_peer (flat_map peer_words ps).
Proof. destruct ps as [|[d l] ps]; [now left|right]. cbn [flat_map peer_words List.app]. eauto. Qed.
Lemma peers_complete ps : Forall peer_right ps -> forall fuel o, (length (flat_map peer_words ps) < fuel)%nat ->
  opts_loop sockaddr u32 fuel o (flat_map peer_words ps) =
  Ok (o_with o (o_dev o) (o_ip o) (o_listen o) (o_peers o ++ map (fun p => popts_result (xpeer0 (fst p)) (snd p)) ps)).
Proof.
  induction ps as [|[d l] ps IH]; intros F fuel o L; (destruct fuel as [|fuel]; [lia|]).
  - cbn [flat_map opts_loop map]. rewrite app_nil_r. now destruct o.
  - inversion F as [|? ? Hp Fp]; subst.
    change (flat_map peer_words ((d, l) :: ps)) with ("peer" :: d :: flat_map popt_words l ++ flat_map peer_words ps) in *.
    cbn [opts_loop String.eqb Ascii.eqb Bool.eqb peer_parse].
    rewrite peer_opts_complete; [|apply Forall_forall; intros o' I'; exact (Hp o' I')|apply peers_at].
    rewrite IH; [|exact Fp|cbn [length] in L; rewrite app_length in L; lia].
    unfold o_with. cbn [o_dev o_ip o_listen o_peers o_verbose o_dir map fst snd]. now rewrite <- app_assoc.
Qed.
Lemma opts_complete l : Forall oopt_ok l -> forall ps, Forall peer_right ps -> forall fuel o, (length (flat_map oopt_words l ++ flat_map peer_words ps) < fuel)%nat ->
  opts_loop sockaddr u32 fuel o (flat_map oopt_words l ++ flat_map peer_words ps) = Ok (line_result o l ps).
Proof.
  induction l as [|x l IH]; intros F ps Fp fuel o L.
  - cbn [flat_map List.app] in *. rewrite peers_complete by assumption. reflexivity.
  - destruct fuel as [|fuel]; [lia|]. inversion F as [|? ? Hx Fl]; subst.
    destruct x as [v|v|v]; cbn [flat_map oopt_words List.app opts_loop String.eqb Ascii.eqb Bool.eqb] in *; cbn [length] in L.
    + rewrite IH by (assumption || lia). reflexivity.
    + rewrite IH by (assumption || lia). reflexivity.
    + cbn [oopt_ok] in Hx. destruct (sockaddr v) as [a|] eqn:E; [|contradiction]. rewrite IH by (assumption || lia).
      unfold line_result, oopts_result, fold_latest, o_with. cbn [fold_left o_dev o_ip o_listen o_peers o_verbose o_dir]. now rewrite E.
Qed.
Lemma opts_sound fuel : forall o args, (length args < fuel)%nat ->
  match opts_loop sockaddr u32 fuel o args with
  | Ok x => exists l ps, args = flat_map oopt_words l ++ flat_map peer_words ps /\ Forall oopt_ok l /\ Forall peer_right ps /\ x = line_result o l ps /\ (at_peer args -> l = [])
  | Err _ => True
  | Panic => False
  end.
Proof.
  induction fuel as [|fuel IH]; intros o args L; [lia|]. destruct args as [|x rest].
  - cbn [opts_loop]. exists [], []. split; [reflexivity|]. split; [constructor|]. split; [constructor|]. split; [|reflexivity].
    unfold line_result, oopts_result, o_with, fold_latest. cbn [fold_left o_dev o_ip o_listen o_peers o_verbose o_dir map]. rewrite app_nil_r. now destruct o.
  - cbn [opts_loop]. cbn [length] in L.
    assert (Np : forall r, x <> "peer" -> at_peer (x :: rest) -> r = @nil oopt) by (intros r N [H|[y H]]; [discriminate|congruence]).
    destruct (String.eqb_spec x "dev") as [->|_].
    { destruct rest as [|v rest]; [exact I|]. cbn [length] in L.
      specialize (IH (o_with o (Some v) (o_ip o) (o_listen o) (o_peers o)) rest ltac:(lia)).
      destruct (opts_loop _ _ _ _ rest) as [y| |]; [|exact I|exact IH]. destruct IH as (l & ps & -> & F & Fp & -> & _).
      exists (ODev v :: l), ps. split; [reflexivity|]. split; [constructor; [exact I|exact F]|]. split; [exact Fp|]. split; [reflexivity|]. apply Np; discriminate. }
    destruct (String.eqb_spec x "ip") as [->|_].
    { destruct rest as [|v rest]; [exact I|]. cbn [length] in L.
      specialize (IH (o_with o (o_dev o) (Some v) (o_listen o) (o_peers o)) rest ltac:(lia)).
      destruct (opts_loop _ _ _ _ rest) as [y| |]; [|exact I|exact IH]. destruct IH as (l & ps & -> & F & Fp & -> & _).
      exists (OIp v :: l), ps. split; [reflexivity|]. split; [constructor; [exact I|exact F]|]. split; [exact Fp|]. split; [reflexivity|]. apply Np; discriminate. }
    destruct (String.eqb_spec x "listen") as [->|_].
    { destruct rest as [|v rest]; [exact I|]. destruct (sockaddr v) as [a|] eqn:E; [|exact I]. cbn [length] in L.
      specialize (IH (o_with o (o_dev o) (o_ip o) (Some a) (o_peers o)) rest ltac:(lia)).
      destruct (opts_loop _ _ _ _ rest) as [y| |]; [|exact I|exact IH]. destruct IH as (l & ps & -> & F & Fp & -> & _).
      exists (OListen v :: l), ps. split; [reflexivity|]. split; [constructor; [cbn [oopt_ok]; congruence|exact F]|]. split; [exact Fp|]. split; [|apply Np; discriminate].
      unfold line_result, oopts_result, fold_latest, o_with. cbn [fold_left o_dev o_ip o_listen o_peers o_verbose o_dir]. now rewrite E. }
    destruct (String.eqb_spec x "peer") as [->|_]; [|exact I].
    unfold peer_parse. destruct rest as [|d rest]; [exact I|]. cbn [length] in L.
    pose proof (peer_opts_sound rest (length rest) (xpeer0 d) _ (Nat.le_refl _) eq_refl) as S.
    destruct (peer_opts sockaddr u32 (xpeer0 d) rest) as [[p r]| |]; [|exact I|exact S]. destruct S as (po & -> & Fo & R & ->).
    rewrite app_length in L. specialize (IH (o_with o (o_dev o) (o_ip o) (o_listen o) (o_peers o ++ [popts_result (xpeer0 d) po])) r ltac:(lia)).
    destruct (opts_loop _ _ _ _ r) as [y| |]; [|exact I|exact IH]. destruct IH as (l & ps & -> & F & Fp & -> & Nl). specialize (Nl R). subst l. clear F.
    exists [], ((d, po) :: ps). split; [cbn [flat_map List.app peer_words fst snd]; reflexivity|]. split; [constructor|].
    split; [constructor; [|exact Fp]|].
    { intros o' I'. rewrite Forall_forall in Fo. exact (Fo o' I'). }
    split; [|reflexivity]. unfold line_result, oopts_result, fold_latest, o_with. cbn [fold_left o_dev o_ip o_listen o_peers o_verbose o_dir map fst snd]. now rewrite <- app_assoc.
Qed.

Lemma line_result_says l : line_says l (line_result (xopts0 (l_dir l)) (l_opts l) (l_peers l)).
Proof.
  repeat split; try apply fold_latest_is. unfold line_result, o_with, xopts0. cbn [o_peers List.app].
  induction (l_peers l) as [|[d po] ps IH]; constructor; [apply popts_says|exact IH].
Qed.
Lemma opts_parse_complete l : line_right l -> opts_parse sockaddr u32 (line_words l) = Ok (line_result (xopts0 (l_dir l)) (l_opts l) (l_peers l)).
Proof.
  intros [H1 H2]. unfold opts_parse, line_words. apply opts_complete; [|exact H2|lia]. apply Forall_forall. intros [v|v|v] I'; [exact I|exact I|now apply H1].
Qed.
Lemma opts_parse_sound args :
  match opts_parse sockaddr u32 args with
  | Ok o => exists l, args = line_words l /\ line_right l /\ o = line_result (xopts0 (l_dir l)) (l_opts l) (l_peers l)
  | Err _ => True
  | Panic => False
  end.
Proof.
  unfold opts_parse. destruct args as [|d args]; [exact I|]. pose proof (opts_sound (S (List.length args)) (xopts0 d) args ltac:(lia)) as S.
  destruct (opts_loop _ _ _ _ args) as [o| |]; [|exact I|exact S]. destruct S as (l & ps & -> & F & Fp & -> & _).
  exists {| l_dir := d; l_opts := l; l_peers := ps |}. split; [reflexivity|]. split; [|reflexivity]. split; [|exact Fp].
  intros v I'. rewrite Forall_forall in F. exact (F _ I').
Qed.

(** The whole line, as a fold *)
Definition item_step (c : cli) (i : item) : cli :=
  match i with
  | IVerbose => {| cl_verbose := true; cl_command := cl_command c |}
  | IExplain => c
  | IHelp => with_command c RHelp
  | IGenKey d => with_command c (RGenKey d)
  | IPubKey d p => with_command c (RPubKey d p)
  | IConfig f => with_command c (RExchangeConfig f)
  | IExchange l => with_command c (RExchange (line_result (xopts0 (l_dir l)) (l_opts l) (l_peers l)))
  end.
Fixpoint fine (b : bool) (l : list item) : Prop :=
  match l with
  | [] => True
  | i :: r => (names i = true -> i <> IHelp -> b = false) /\ (forall x, i = IExchange x -> r = [] /\ line_right x) /\ fine (b || names i) r
  end.
Lemma has_step c i : has_command (item_step c i) = has_command c || names i.
Proof. destruct i; cbn [item_step names]; unfold has_command, with_command; cbn [cl_command]; try now rewrite orb_true_r. all: now rewrite orb_false_r. Qed.

Lemma cli_complete l : forall c, fine (has_command c) l -> cli_loop sockaddr u32 c (rp_words l) = Ok (fold_left item_step l c).
Proof.
  induction l as [|i l IH]; intros c F; [reflexivity|]. destruct F as (F1 & F2 & F3). rewrite <- has_step in F3.
  destruct i as [| | |d|d p|f|x]; unfold rp_words; cbn [flat_map item_words List.app cli_loop String.eqb Ascii.eqb Bool.eqb fold_left];
    try (rewrite (F1 eq_refl) by discriminate); try exact (IH _ F3).
  destruct (F2 x eq_refl) as [-> R]. cbn [flat_map]. rewrite app_nil_r. now rewrite opts_parse_complete.
Qed.
Lemma cli_sound n : forall args c, (length args <= n)%nat ->
  match cli_loop sockaddr u32 c args with
  | Ok c' => exists l, args = rp_words l /\ fine (has_command c) l /\ c' = fold_left item_step l c
  | Err _ => True
  | Panic => False
  end.
Proof.
  induction n as [|n IH]; intros args c L; (destruct args as [|x rest]; [exists []; repeat split|]); cbn [length] in L; [lia|]. cbn [cli_loop].
  assert (K : forall i r, (length r <= n)%nat -> x :: rest = item_words i ++ r -> (names i = true -> i <> IHelp -> has_command c = false) -> (forall l, i <> IExchange l) ->
    match cli_loop sockaddr u32 (item_step c i) r with
    | Ok c' => exists l, x :: rest = rp_words l /\ fine (has_command c) l /\ c' = fold_left item_step l c
    | Err _ => True
    | Panic => False
    end).
  { intros i r Lr E F Nx. specialize (IH r (item_step c i) Lr). destruct (cli_loop _ _ _ r) as [c'| |]; [|exact I|exact IH].
    destruct IH as (l & -> & Fl & ->). exists (i :: l). split; [exact E|]. split; [|reflexivity]. cbn [fine]. split; [exact F|].
    split; [intros y ->; now destruct (Nx y)|]. now rewrite <- has_step. }
  destruct (String.eqb_spec x "verbose") as [->|_]; [apply (K IVerbose rest); [lia|reflexivity|discriminate|discriminate]|].
  destruct (String.eqb_spec x "explain") as [->|_]; [apply (K IExplain rest); [lia|reflexivity|discriminate|discriminate]|].
  destruct (String.eqb_spec x "genkey") as [->|_].
  { destruct (has_command c) eqn:Hc; [exact I|]. destruct rest as [|d rest]; [exact I|]. cbn [length] in L.
    apply (K (IGenKey d) rest); [lia|reflexivity|auto|discriminate]. }
  destruct (String.eqb_spec x "pubkey") as [->|_].
  { destruct (has_command c) eqn:Hc; [exact I|]. destruct rest as [|d [|p rest]]; [exact I|exact I|]. cbn [length] in L.
    apply (K (IPubKey d p) rest); [lia|reflexivity|auto|discriminate]. }
  destruct (String.eqb_spec x "exchange") as [->|_].
  { destruct (has_command c) eqn:Hc; [exact I|]. pose proof (opts_parse_sound rest) as P. destruct (opts_parse sockaddr u32 rest) as [o| |]; [|exact I|exact P].
    destruct P as (l & -> & R & ->). exists [IExchange l]. split; [unfold rp_words; cbn [flat_map item_words List.app]; now rewrite app_nil_r|].
    split; [|reflexivity]. cbn [fine]. split; [auto|]. split; [|exact I]. intros y E. assert (y = l) by congruence. subst y. auto. }
  destruct (String.eqb_spec x "exchange-config") as [->|_].
  { destruct (has_command c) eqn:Hc; [exact I|]. destruct rest as [|d rest]; [exact I|]. cbn [length] in L.
    apply (K (IConfig d) rest); [lia|reflexivity|auto|discriminate]. }
  destruct (String.eqb_spec x "help") as [->|_]; [|exact I].
  apply (K IHelp rest); [lia|reflexivity|congruence|discriminate].
Qed.

Lemma fine_right l : forall b, fine b l <->
  (forall l1 i l2, l = l1 ++ i :: l2 -> names i = true -> i <> IHelp -> b = false /\ forall j, In j l1 -> names j = false) /\
  (forall l1 x l2, l = l1 ++ IExchange x :: l2 -> l2 = [] /\ line_right x).
Proof.
  induction l as [|i l IH]; intros b; cbn [fine].
  - split; [intros _|auto]. split; intros [|? ?] ? ? E; discriminate E.
  - split.
    + intros (F1 & F2 & F3). apply IH in F3 as [G1 G2]. split.
      * intros [|y l1] j l2 E Nj Hj; cbn [List.app] in E.
        -- assert (j = i) by congruence. subst j. split; [now apply F1|contradiction].
        -- assert (y = i /\ l = l1 ++ j :: l2) as [-> ->] by (split; congruence). destruct (G1 _ _ _ eq_refl Nj Hj) as [B A].
           apply orb_false_iff in B as [B1 B2]. split; [exact B1|]. intros k [<-|Ik]; auto.
      * intros [|y l1] x l2 E; cbn [List.app] in E.
        -- assert (i = IExchange x /\ l = l2) as [-> <-] by (split; congruence). now apply F2.
        -- apply (G2 l1). congruence.
    + intros [G1 G2]. split; [intros Ni Hi; now apply (G1 [] i l)|]. split; [intros x ->; now apply (G2 [] x l)|].
      apply IH. split.
      * intros l1 j l2 -> Nj Hj. destruct (G1 (i :: l1) j l2 eq_refl Nj Hj) as [-> A]. split; [cbn [orb]; apply A; now left|intros k Ik; apply A; now right].
      * intros l1 x l2 ->. now apply (G2 (i :: l1)).
Qed.
Lemma has_fold l : forall c, has_command (fold_left item_step l c) = true <-> has_command c = true \/ exists i, In i l /\ names i = true.
Proof.
  induction l as [|i l IH]; intros c; cbn [fold_left]; [split; [auto|intros [H|(i & [] & _)]; exact H]|].
  rewrite IH, has_step, orb_true_iff. split.
  - intros [[H|H]|(j & Ij & Nj)]; [now left|right; exists i; split; [now left|exact H]|right; exists j; split; [now right|exact Nj]].
  - intros [H|(j & [<-|Ij] & Nj)]; [auto|auto|right; eauto].
Qed.
Lemma verbose_fold l : forall c, cl_verbose (fold_left item_step l c) = true <-> cl_verbose c = true \/ In IVerbose l.
Proof.
  induction l as [|i l IH]; intros c; cbn [fold_left]; [split; [auto|intros [H|[]]; exact H]|]. rewrite IH.
  assert (H : cl_verbose (item_step c i) = true <-> cl_verbose c = true \/ i = IVerbose).
  { destruct i; cbn [item_step with_command cl_verbose]; (split; [auto|intros [X|X]; first [exact X|discriminate X|reflexivity]]). }
  rewrite H. cbn [In]. split.
  - intros [[X|X]|X]; auto.
  - intros [X|[X|X]]; auto.
Qed.
Lemma fold_says l : (exists i, In i l /\ names i = true) -> forall c,
  exists l1 i l2 x, l = l1 ++ i :: l2 /\ names i = true /\ (forall j, In j l2 -> names j = false) /\ cl_command (fold_left item_step l c) = Some x /\ item_says i x.
Proof.
  induction l as [|y l IH] using rev_ind; intros (i & Ii & Ni) c; [contradiction|].
  destruct (names y) eqn:Ny.
  - destruct y as [| | |d|d p|f|x]; try discriminate Ny; rewrite fold_left_app; cbn [fold_left item_step with_command cl_command];
      eexists l, _, [], _; (split; [reflexivity|]; split; [reflexivity|]; split; [contradiction|]; split; [reflexivity|]; cbn [item_says]; try reflexivity).
    eexists. split; [reflexivity|]. apply line_result_says.
  - assert (I' : exists i, In i l /\ names i = true).
    { apply in_app_or in Ii as [H|[H|[]]]; [eauto|congruence]. }
    destruct (IH I' c) as (l1 & j & l2 & x & -> & Nj & F & E & Sj). exists l1, j, (l2 ++ [y]), x. split; [now rewrite <- app_assoc|]. split; [exact Nj|].
    split; [intros k Ik; apply in_app_or in Ik as [H|[<-|[]]]; auto|]. split; [|exact Sj].
    rewrite fold_left_app. cbn [fold_left]. destruct y; try discriminate Ny; cbn [item_step cl_command]; exact E.
Qed.

Lemma peer_says_inj p x y : peer_says p x -> peer_says p y -> x = y.
Proof.
  destruct x as [d1 e1 k1 i1 v1], y as [d2 e2 k2 i2 v2]. unfold peer_says. cbn [x_dir x_endpoint x_keepalive x_ips x_v03]. intros (-> & -> & A & B & C) (-> & -> & A' & B' & C').
  now rewrite (latest_inj _ _ _ _ A A'), (latest_inj _ _ _ _ B B'), (latest_inj _ _ _ _ C C').
Qed.
Lemma line_says_inj l o o' : line_says l o -> line_says l o' -> o = o'.
Proof.
  destruct o as [v d de i li ps], o' as [v' d' de' i' li' ps']. unfold line_says. cbn [o_verbose o_dir o_dev o_ip o_listen o_peers].
  intros (-> & -> & A & B & C & D) (-> & -> & A' & B' & C' & D').
  rewrite (latest_inj _ _ _ _ A A'), (latest_inj _ _ _ _ B B'), (latest_inj _ _ _ _ C C'). f_equal.
  clear - D D'. revert ps' D'. induction D as [|p x lp ps Hp D IH]; intros ps' D'; inversion D' as [|? y ? ps2 Hp' D2]; subst; [reflexivity|].
  f_equal; [exact (peer_says_inj _ _ _ Hp Hp')|exact (IH _ D2)].
Qed.
Lemma rp_says_inj l c c' : rp_says l c -> rp_says l c' -> c = c'.
Proof.
  intros [V (l1 & i & l2 & x & -> & N1 & F1 & E1 & S1)] [V' (l3 & j & l4 & y & E & N2 & F2 & E2 & S2)].
  assert (X : forall (l1 l3 l2 l4 : list item), l1 ++ i :: l2 = l3 ++ j :: l4 -> (forall j, In j l2 -> names j = false) -> (forall j, In j l4 -> names j = false) -> i = j).
  { clear - N1 N2. induction l1 as [|a l1 IH]; intros [|b l3] l2 l4 E A B; cbn [List.app] in E.
    - congruence.
    - exfalso. assert (l2 = l3 ++ j :: l4) by congruence. subst l2. rewrite (A j) in N2; [discriminate|apply in_or_app; right; now left].
    - exfalso. assert (l4 = l1 ++ i :: l2) by congruence. subst l4. rewrite (B i) in N1; [discriminate|apply in_or_app; right; now left].
    - apply (IH l3 l2 l4); auto; congruence. }
  assert (i = j) by (apply (X l1 l3 l2 l4); assumption). subst j.
  assert (x = y).
  { destruct i as [| | |d|d p|f|l]; cbn [item_says] in S1, S2; try contradiction; try congruence.
    destruct S1 as (o & -> & P), S2 as (o' & -> & P'). now rewrite (line_says_inj _ _ _ P P'). }
  destruct c as [v c], c' as [v' c']. cbn [cl_verbose cl_command] in *. f_equal; [|congruence].
  apply eq_true_iff_eq. now rewrite V, V'.
Qed.

(** C47: exactly the sensible lines are taken, and what is understood is what they say *)
Theorem C47_exact exe args c :
  cli_parse sockaddr u32 (exe :: args) = Ok c <-> exists l, args = rp_words l /\ rp_right l /\ rp_says l c.
Proof.
  set (c0 := {| cl_verbose := false; cl_command := None |}).
  assert (R : forall l, rp_right l <-> fine false l /\ has_command (fold_left item_step l c0) = true).
  { intros l. rewrite has_fold. pose proof (fine_right l false) as Fr. unfold rp_right. split.
    - intros (A & B & C). split; [apply Fr; split; [intros l1 i l2 E N H; split; [reflexivity|exact (B l1 i l2 E N H)]|exact C]|now right].
    - intros [F H]. destruct (proj1 Fr F) as [B C]. split; [destruct H as [H|H]; [discriminate|exact H]|]. split; [|exact C].
      intros l1 i l2 E N Hh. exact (proj2 (B l1 i l2 E N Hh)). }
  assert (Sy : forall l, rp_right l -> rp_says l (fold_left item_step l c0)).
  { intros l (A & _). split; [rewrite verbose_fold; split; [intros [X|X]; [discriminate|exact X]|auto]|now apply fold_says]. }
  unfold cli_parse. cbn [tl]. fold c0. split.
  - intros E. pose proof (cli_sound (length args) args c0 (Nat.le_refl _)) as P. destruct (cli_loop sockaddr u32 c0 args) as [c'| |]; [|discriminate|contradiction].
    destruct P as (l & -> & F & ->). destruct (has_command (fold_left item_step l c0)) eqn:H; [|discriminate].
    assert (c = fold_left item_step l c0) by congruence. subst c. exists l. split; [reflexivity|].
    assert (rp_right l) by (apply R; auto). auto.
  - intros (l & -> & Hr & Hs). pose proof (proj1 (R l) Hr) as [F H]. rewrite cli_complete by exact F. rewrite H. f_equal.
    exact (rp_says_inj _ _ _ (Sy l Hr) Hs).
Qed.
(** C47: no line makes the parser fail to answer *)
Theorem C47_total args : cli_parse sockaddr u32 args <> Panic.
Proof.
  unfold cli_parse. pose proof (cli_sound (length (tl args)) (tl args) {| cl_verbose := false; cl_command := None |} (Nat.le_refl _)) as P.
  destruct (cli_loop _ _ _ (tl args)) as [c| |]; [destruct (has_command c); discriminate|discriminate|contradiction].
Qed.
(** C47: nothing that was said is lost, except that of an option given twice the first is *)
Theorem C47_repeated_refuted d a b :
  cli_parse sockaddr u32 ["rp"; "exchange"; d; "dev"; a; "dev"; b] = cli_parse sockaddr u32 ["rp"; "exchange"; d; "dev"; b].
Proof. reflexivity. Qed.
(** C47: "help" takes the place of the command before it, not of one behind it *)
Theorem C47_help_refuted d :
  cli_parse sockaddr u32 ["rp"; "genkey"; d; "help"] = Ok {| cl_verbose := false; cl_command := Some RHelp |} /\
  cli_parse sockaddr u32 ["rp"; "help"; "genkey"; d] = Err tt.
Proof. split; reflexivity. Qed.
End Line.
Print Assumptions C47_exact.
Print Assumptions C47_total.
Print Assumptions C47_repeated_refuted.
Print Assumptions C47_help_refuted.

Definition an_addr (s : string) : option addr :=
  if String.eqb s "192.0.2.1:51820" then Some {| a_ip := "192.0.2.1"; a_port := 51820; a_scope := 0 |}
  else if String.eqb s "[fe80::1%2]:65535" then Some {| a_ip := "fe80::1"; a_port := 65535; a_scope := 2 |} else None.
Definition a_number (s : string) : option N := if String.eqb s "25" then Some 25%N else None.
(** A line with everything in it, and one that does not parse *)
Example C47_case :
  cli_parse an_addr a_number
    ["rp"; "verbose"; "exchange"; "/k"; "dev"; "rp0"; "listen"; "192.0.2.1:51820"; "peer"; "/a"; "endpoint"; "192.0.2.1:51820"; "allowed-ips"; "10.0.0.0/8";
     "peer"; "/b"; "persistent-keepalive"; "25"] =
  Ok {| cl_verbose := true; cl_command := Some (RExchange
     {| o_verbose := false; o_dir := "/k"; o_dev := Some "rp0"; o_ip := None; o_listen := Some {| a_ip := "192.0.2.1"; a_port := 51820; a_scope := 0 |};
        o_peers := [ {| x_dir := "/a"; x_endpoint := Some {| a_ip := "192.0.2.1"; a_port := 51820; a_scope := 0 |}; x_keepalive := None; x_ips := Some "10.0.0.0/8"; x_v03 := false |};
                     {| x_dir := "/b"; x_endpoint := None; x_keepalive := Some 25%N; x_ips := None; x_v03 := false |} ] |}) |} /\
  cli_parse an_addr a_number ["rp"; "exchange"; "/k"; "peer"; "/a"; "dev"; "rp0"] = Err tt /\
  cli_parse an_addr a_number ["rp"; "genkey"; "/k"; "genkey"; "/k"] = Err tt.
Proof. vm_compute. auto. Qed.

(** * C71, C72 *)

(** A file with a key of 32 bytes in Base64 *)
Definition key_in (f : fs) (p : path) (k : bytes) : Prop := contents f p = Some (b64_text k) /\ length k = 32%nat.
(** The port behind a port, and the address with it: rosenpass runs at one port, WireGuard at the next *)
Definition next_addr (a : addr) : addr := {| a_ip := a_ip a; a_port := a_port a + 1; a_scope := a_scope a |}.
Definition dev_of (o : xopts) : string := match o_dev o with Some d => d | None => "rosenpass0" end.
(** The networks in a list with commas *)
Fixpoint networks (cur s : string) : list string :=
  match s with
  | EmptyString => [cur]
  | String c s => if Ascii.eqb c "," then cur :: networks "" s else networks (cur ++ String c "")%string s
  end.
Fixpoint no_comma (s : string) : bool := match s with EmptyString => true | String c s => negb (Ascii.eqb c ",") && no_comma s end.
Definition on_dev (d : string) (e : effect) : Prop :=
  match e with
  | EAdd x | EHandle x | EUp x | EDel x | ESet x _ _ => x = d
  | EExec argv => exists a b, argv = ["ip"; a; b; nth 3 argv ""; "dev"; d]
  end.

Section Exchange.
Variables (show_addr : addr -> string) (show_n : N -> string) (works : effect -> bool) (devs : string -> bool) (checks : bool)
  (junk : bytes -> bytes -> option bytes) (rand_sk : bytes) (binds : bool) (rand_psk : nat -> bytes) (toml : bytes -> option xopts).
Notation exchange := (Rp.exchange show_addr show_n works devs checks junk rand_sk binds rand_psk).
Notation rp_exchange_config := (Rp.rp_exchange_config show_addr show_n works devs checks junk rand_sk binds rand_psk toml).
Notation setup_peers := (Rp.setup_peers show_addr show_n works checks junk rand_psk).
Notation setup_peer := (Rp.setup_peer show_addr show_n checks junk).
Notation setup := (Rp.setup show_addr show_n works checks junk binds rand_psk).

(** The ports leave room for the one behind them, and no address is bound to an interface *)
Definition ports_right (o : xopts) : Prop :=
  (forall a, o_listen o = Some a -> a_port a <> 65535%N) /\
  (forall p a, In p (o_peers o) -> x_endpoint p = Some a -> a_port a <> 65535%N /\ a_scope a = 0%N).
(** What is told to WireGuard about a peer, besides its key *)
Definition told (p : xpeer) : list string :=
  match x_endpoint p with Some a => ["endpoint"; show_addr (next_addr a)] | None => [] end
  ++ match x_keepalive p with Some n => ["persistent-keepalive"; show_n n] | None => [] end
  ++ match x_ips p with Some s => ["allowed-ips"; s] | None => [] end.
(** A peer of the running server is the one that was asked for *)
Definition peer_asked (f : fs) (dev : string) (p : xpeer) (s : srv_peer) : Prop :=
  contents f (join (x_dir p) "pqpk") = Some (s_pk s) /\
  (exists id, s_wg s = Some (dev, id, told p) /\ length id = 32%nat /\ forall k, key_in f (join (x_dir p) "wgpk") k -> id = k) /\
  (f (join (x_dir p) "psk") = None -> s_psk s = None) /\
  (f (join (x_dir p) "psk") <> None -> exists key, s_psk s = Some key /\ forall k, key_in f (join (x_dir p) "psk") k -> key = k) /\
  s_endpoint s = option_map show_addr (x_endpoint p) /\ s_out s = None /\ s_v03 s = x_v03 p /\ s_domain s = None.
Definition ip_args (o : xopts) : list effect := match o_ip o with Some a => [EExec ["ip"; "address"; "add"; a; "dev"; dev_of o]] | None => [] end.
Definition routes (o : xopts) : list effect :=
  flat_map (fun p => match x_ips p with Some s => [EExec ["ip"; "route"; "replace"; s; "dev"; dev_of o]] | None => [] end) (o_peers o).

Lemma key_decodes f p k out : key_in f p k -> length out = 32%nat -> forall t, contents f p = Some t -> b64_decode junk t out = Some k.
Proof.
  intros [C L] Lo t Ct. assert (t = b64_text k) by congruence. subst t.
  rewrite b64_decode_text by (intros ->; discriminate L). rewrite L, Lo. cbn [Nat.leb]. rewrite skipn_all2 by (rewrite Lo; auto). now rewrite app_nil_r.
Qed.
Lemma key_loads f p k out : key_in f p k -> length out = 32%nat -> load_b64 junk WG_B64_LEN out p f = Some k.
Proof.
  intros K Lo. pose proof K as [C L]. unfold load_b64. rewrite C, b64_text_length, L. change (Nat.leb (4 * ((32 + 2) / 3)) WG_B64_LEN) with true. cbn iota.
  exact (key_decodes f p k out K Lo _ C).
Qed.
Lemma load_contents n p f d : load n p f = Some d -> contents f p = Some d.
Proof. intros H. apply C68_exact in H as [[m H] _]. unfold contents. now rewrite H. Qed.
Lemma decode_length t out id : b64_decode junk t out = Some id -> length id = length out.
Proof.
  unfold b64_decode. destruct t as [|c t]; [discriminate|]. destruct (b64_data (c :: t)) as [d|].
  - destruct (Nat.leb_spec (length d) (length out)); [|discriminate]. intros E. assert (id = d ++ skipn (length d) out) by congruence. subst id.
    rewrite app_length, skipn_length. lia.
  - destruct (junk (c :: t) out) as [r|]; [|discriminate]. destruct (Nat.eqb_spec (length r) (length out)); [|discriminate]. congruence.
Qed.

Lemma extra_told p : (forall a, x_endpoint p = Some a -> a_port a <> 65535%N /\ a_scope a = 0%N) -> extra_params show_addr show_n checks p = Ok (told p).
Proof.
  intros H. unfold extra_params, told, next_port, next_addr. destruct (x_endpoint p) as [a|]; [|reflexivity].
  destruct (H a eq_refl) as [P S0]. apply N.eqb_neq in P. rewrite P, S0. reflexivity.
Qed.
Lemma setup_peer_asked f dev rnd p s : (forall a, x_endpoint p = Some a -> a_port a <> 65535%N /\ a_scope a = 0%N) -> length rnd = 32%nat ->
  setup_peer f dev rnd p = Ok s -> peer_asked f dev p s.
Proof.
  intros H Lr E. unfold Rp.setup_peer in E. rewrite (extra_told p H) in E.
  destruct (contents f (join (x_dir p) "wgpk")) as [t|] eqn:Ct; [|discriminate].
  destruct (load SPK_LEN (join (x_dir p) "pqpk") f) as [pk|] eqn:Ep; [|discriminate]. apply load_contents in Ep.
  unfold exists_ in E. destruct (f (join (x_dir p) "psk")) as [nd|] eqn:Es.
  - destruct (load_b64 junk WG_B64_LEN rnd (join (x_dir p) "psk") f) as [key|] eqn:El; [|discriminate].
    destruct (b64_decode junk t (zeros 32)) as [id|] eqn:Ed; [|discriminate].
    match type of E with Ok ?x = Ok ?y => assert (X : x = y) by congruence end. rewrite <- X. clear X E s. unfold peer_asked. cbn [s_pk s_wg s_psk s_endpoint s_out s_v03 s_domain].
    split; [exact Ep|]. split; [exists id; split; [reflexivity|]; split; [exact (decode_length _ _ _ Ed)|]; intros k K; rewrite (key_decodes _ _ _ (zeros 32) K eq_refl _ Ct) in Ed; congruence|].
    rewrite Es. split; [discriminate|]. split; [intros _; exists key; split; [reflexivity|intros k K; rewrite (key_loads _ _ _ _ K Lr) in El; congruence]|auto].
  - destruct (b64_decode junk t (zeros 32)) as [id|] eqn:Ed; [|discriminate].
    match type of E with Ok ?x = Ok ?y => assert (X : x = y) by congruence end. rewrite <- X. clear X E s. unfold peer_asked. cbn [s_pk s_wg s_psk s_endpoint s_out s_v03 s_domain].
    split; [exact Ep|]. split; [exists id; split; [reflexivity|]; split; [exact (decode_length _ _ _ Ed)|]; intros k K; rewrite (key_decodes _ _ _ (zeros 32) K eq_refl _ Ct) in Ed; congruence|].
    rewrite Es. split; [auto|]. split; [contradiction|auto].
Qed.
Lemma setup_peers_asked f dev l : (forall p a, In p l -> x_endpoint p = Some a -> a_port a <> 65535%N /\ a_scope a = 0%N) -> (forall i, length (rand_psk i) = 32%nat) ->
  forall seen i es r, setup_peers f dev seen i l = (es, Ok r) ->
  Forall2 (peer_asked f dev) l r /\
  es = flat_map (fun p => match x_ips p with Some s => [EExec ["ip"; "route"; "replace"; s; "dev"; dev]] | None => [] end) l /\
  NoDup (map s_pk r) /\ (forall k, In k (map s_pk r) -> ~ In k seen).
Proof.
  intros H Lr. induction l as [|p l IH]; intros seen i es r E.
  - cbn [Rp.setup_peers] in E. assert (es = [] /\ r = []) as [-> ->] by (split; congruence). repeat split; [constructor|constructor|contradiction].
  - cbn [Rp.setup_peers] in E. destruct (setup_peer f dev (rand_psk i) p) as [s| |] eqn:Es; [|discriminate..].
    destruct (existsb (bytes_eqb (s_pk s)) seen) eqn:Ex; [discriminate|].
    destruct (match match x_ips p with Some s0 => Some _ | None => None end with Some e => works e | None => true end); [|discriminate].
    destruct (setup_peers f dev (s_pk s :: seen) (S i) l) as [es' r'] eqn:Er. destruct r' as [r'| |]; [|congruence|congruence].
    assert (r = s :: r') by congruence. subst r.
    destruct (IH (fun q a Iq => H q a (or_intror Iq)) _ _ _ _ Er) as (F & -> & Nd & Ns).
    split; [constructor; [apply (setup_peer_asked f dev (rand_psk i)); auto; intros a; exact (H p a (or_introl eq_refl))|exact F]|].
    split; [cbn [flat_map]; destruct (x_ips p) in E |- *; cbn [List.app]; congruence|].
    cbn [map]. split; [constructor; [|exact Nd]; intros I'; exact (Ns _ I' (or_introl eq_refl))|].
    intros k [<-|I'] Ik.
    + assert (existsb (bytes_eqb (s_pk s)) seen = true) by (apply existsb_exists; exists (s_pk s); split; [exact Ik|apply bytes_eqb_refl]). congruence.
    + exact (Ns _ I' (or_intror Ik)).
Qed.

(** C71: a server that runs has the keys and peers that were asked for, and the network device was set up as asked: created, brought
    up, its key and port set, its address and the routes given to `ip`.
    Missing: ports without a port behind them, and addresses bound to an interface, are not set up as asked. *)
Theorem C71_runs_as_asked_partial f o es s fin :
  ports_right o -> length rand_sk = 32%nat -> (forall i, length (rand_psk i) = 32%nat) ->
  exchange f o = (es, XRunning s, fin) ->
  devs (dev_of o) = false /\
  (exists key, (forall k, key_in f (join (o_dir o) "wgsk") k -> key = k) /\
     es = [EAdd (dev_of o); EUp (dev_of o); ESet (dev_of o) key (option_map (fun a => a_port a + 1)%N (o_listen o))] ++ ip_args o ++ routes o) /\
  contents f (join (o_dir o) "pqsk") = Some (fst (xs_keys s)) /\ contents f (join (o_dir o) "pqpk") = Some (snd (xs_keys s)) /\
  xs_listen s = match o_listen o with Some a => [a] | None => [] end /\ xs_verbose s = o_verbose o /\
  Forall2 (peer_asked f (dev_of o)) (o_peers o) (xs_peers s) /\ NoDup (map s_pk (xs_peers s)) /\
  fin = [EDel (dev_of o)].
Proof.
  intros [P1 P2] Lsk Lpsk E. unfold Rp.exchange in E. fold (dev_of o) in E. set (dev := dev_of o) in *.
  destruct (load_b64 junk WG_B64_LEN rand_sk (join (o_dir o) "wgsk") f) as [key|] eqn:Ek; [|discriminate].
  destruct (load SSK_LEN (join (o_dir o) "pqsk") f) as [sk|] eqn:Esk; [|discriminate].
  destruct (load SPK_LEN (join (o_dir o) "pqpk") f) as [pk|] eqn:Epk; [|discriminate].
  apply load_contents in Esk, Epk. unfold open_device in E.
  destruct (devs dev) eqn:Ed; [discriminate|]. destruct (works (EAdd dev)); [|discriminate]. destruct (works (EHandle dev)); [|discriminate].
  destruct (works (EUp dev)); [|discriminate]. unfold Rp.setup in E.
  assert (Pt : match o_listen o with Some a => match next_port checks (a_port a) with Ok n => Ok (Some n) | Err e => Err e | Panic => Panic end | None => Ok None end
     = @Ok unit _ (option_map (fun a => a_port a + 1)%N (o_listen o))).
  { destruct (o_listen o) as [a|]; [|reflexivity]. unfold next_port. rewrite (proj2 (N.eqb_neq _ _) (P1 a eq_refl)). reflexivity. }
  rewrite Pt in E. clear Pt. destruct (works (ESet _ _ _)); [|discriminate]. destruct (forallb works _); [|discriminate]. destruct binds; [|discriminate].
  destruct (setup_peers f dev [] 0 (o_peers o)) as [es' r] eqn:Er. destruct r as [r| |]; [|discriminate..].
  destruct (setup_peers_asked f dev (o_peers o) P2 Lpsk _ _ _ _ Er) as (F & -> & Nd & _).
  match type of E with (?a, ?b, ?c) = _ => assert (X1 : a = es) by congruence; assert (X2 : b = XRunning s) by congruence; assert (X3 : c = fin) by congruence end.
  clear E. match type of X2 with XRunning ?a = _ => assert (X : a = s) by congruence end. rewrite <- X. cbn [xs_keys xs_listen xs_verbose xs_peers fst snd].
  split; [reflexivity|]. split.
  { exists key. split; [intros k K; rewrite (key_loads _ _ _ _ K Lsk) in Ek; congruence|]. rewrite <- X1. unfold ip_args, routes. fold dev. reflexivity. }
  split; [exact Esk|]. split; [exact Epk|]. split; [reflexivity|]. split; [reflexivity|]. split; [exact F|]. split; [exact Nd|]. now rewrite <- X3.
Qed.

Lemma peers_start f dev l : (forall e, works e = true) -> (forall i, length (rand_psk i) = 32%nat) ->
  forall pks seen i, (forall p a, In p l -> x_endpoint p = Some a -> a_port a <> 65535%N /\ a_scope a = 0%N) ->
  Forall2 (fun p pk => contents f (join (x_dir p) "pqpk") = Some pk /\ N.of_nat (length pk) = 524160%N /\
     (exists id, key_in f (join (x_dir p) "wgpk") id) /\ (f (join (x_dir p) "psk") = None \/ exists k, key_in f (join (x_dir p) "psk") k)) l pks ->
  NoDup pks -> (forall k, In k pks -> ~ In k seen) ->
  exists es r, setup_peers f dev seen i l = (es, Ok r).
Proof.
  intros W Lr. induction l as [|p l IH]; intros pks seen i H F Nd Ns; [cbn [Rp.setup_peers]; eauto|].
  inversion F as [|? pk ? pks' (Cp & Lp & (id & Kid) & Ps) F']; subst. inversion Nd as [|? ? Nin Nd']; subst.
  cbn [Rp.setup_peers]. unfold Rp.setup_peer at 1. rewrite (extra_told p (fun a => H p a (or_introl eq_refl))).
  pose proof Kid as [Ct _]. rewrite Ct, (key_decodes _ _ _ (zeros 32) Kid eq_refl _ Ct).
  assert (Ld : load SPK_LEN (join (x_dir p) "pqpk") f = Some pk) by (change 524160%N with SPK_LEN in Lp; unfold load; rewrite Cp, (proj2 (N.eqb_eq _ _) Lp); reflexivity). rewrite Ld.
  assert (Ek : existsb (bytes_eqb pk) seen = false).
  { apply not_true_is_false. intros X. apply existsb_exists in X as (k & Ik & Eq). apply bytes_eqb_eq in Eq. subst k. exact (Ns pk (or_introl eq_refl) Ik). }
  assert (R : exists es r, setup_peers f dev (pk :: seen) (S i) l = (es, Ok r)).
  { apply (IH pks'); [intros q a Iq; exact (H q a (or_intror Iq))|exact F'|exact Nd'|]. intros k Ik [<-|Is]; [contradiction|exact (Ns k (or_intror Ik) Is)]. }
  destruct R as (es & r & R).
  assert (Psk : exists o, (if exists_ f (join (x_dir p) "psk")
             then match load_b64 junk WG_B64_LEN (rand_psk i) (join (x_dir p) "psk") f with Some k => Some (Some k) | None => None end
             else Some None) = Some o).
  { unfold exists_. destruct Ps as [->|(k & K)]; [eauto|]. rewrite (key_loads _ _ _ _ K (Lr i)). destruct (f _); eauto. }
  destruct Psk as (o & ->). cbn [s_pk]. rewrite Ek, R.
  destruct (x_ips p) as [s|]; [rewrite W|]; eauto.
Qed.
(** C71: if the files are there, the device does not exist and nothing goes wrong, the server runs *)
Theorem C71_starts f o pks wgsk sk pk :
  ports_right o -> length rand_sk = 32%nat -> (forall i, length (rand_psk i) = 32%nat) ->
  devs (dev_of o) = false -> (forall e, works e = true) -> binds = true ->
  key_in f (join (o_dir o) "wgsk") wgsk ->
  contents f (join (o_dir o) "pqsk") = Some sk -> N.of_nat (length sk) = 13608%N ->
  contents f (join (o_dir o) "pqpk") = Some pk -> N.of_nat (length pk) = 524160%N ->
  Forall2 (fun p k => contents f (join (x_dir p) "pqpk") = Some k /\ N.of_nat (length k) = 524160%N /\
     (exists id, key_in f (join (x_dir p) "wgpk") id) /\ (f (join (x_dir p) "psk") = None \/ exists q, key_in f (join (x_dir p) "psk") q)) (o_peers o) pks ->
  NoDup pks ->
  exists es s fin, exchange f o = (es, XRunning s, fin).
Proof.
  intros [P1 P2] Lsk Lpsk D W B Kw Csk Lns Cpk Lnp F Nd. unfold Rp.exchange. fold (dev_of o).
  rewrite (key_loads _ _ _ _ Kw Lsk).
  assert (Ls : load SSK_LEN (join (o_dir o) "pqsk") f = Some sk) by (change 13608%N with SSK_LEN in Lns; unfold load; rewrite Csk, (proj2 (N.eqb_eq _ _) Lns); reflexivity). rewrite Ls.
  assert (Lp : load SPK_LEN (join (o_dir o) "pqpk") f = Some pk) by (change 524160%N with SPK_LEN in Lnp; unfold load; rewrite Cpk, (proj2 (N.eqb_eq _ _) Lnp); reflexivity). rewrite Lp.
  unfold open_device. rewrite D, !W. unfold Rp.setup.
  assert (Pt : match o_listen o with Some a => match next_port checks (a_port a) with Ok n => Ok (Some n) | Err e => Err e | Panic => Panic end | None => Ok None end
     = @Ok unit _ (option_map (fun a => a_port a + 1)%N (o_listen o))).
  { destruct (o_listen o) as [a|]; [|reflexivity]. unfold next_port. rewrite (proj2 (N.eqb_neq _ _) (P1 a eq_refl)). reflexivity. }
  rewrite Pt, W, B. destruct (peers_start f (dev_of o) (o_peers o) W Lpsk pks [] 0%nat P2 F Nd (fun _ _ => @in_nil _ _)) as (es & r & R). rewrite R.
  assert (Fb : forallb works (match o_ip o with Some a => [EExec ["ip"; "address"; "add"; a; "dev"; dev_of o]] | None => [] end) = true).
  { destruct (o_ip o); [|reflexivity]. cbn [forallb]. now rewrite W. }
  rewrite Fb. eauto.
Qed.

(** What is done to the system *)
Lemma peers_on f dev l : forall seen i, Forall (on_dev dev) (fst (setup_peers f dev seen i l)).
Proof.
  induction l as [|p l IH]; intros seen i; cbn [Rp.setup_peers]; [constructor|].
  destruct (setup_peer f dev (rand_psk i) p) as [s| |]; [|constructor..]. destruct (existsb _ seen); [constructor|].
  specialize (IH (s_pk s :: seen) (S i)). destruct (x_ips p) as [x|].
  - destruct (works _); [|constructor]. destruct (setup_peers f dev _ (S i) l) as [es r]. constructor; [|exact IH]. exists "route", "replace". reflexivity.
  - destruct (setup_peers f dev _ (S i) l) as [es r]. exact IH.
Qed.
Lemma setup_on f o dev k sk pk : Forall (on_dev dev) (fst (setup f o dev k sk pk)).
Proof.
  unfold Rp.setup. destruct (match o_listen o with Some _ => _ | None => _ end) as [port|e|]; [|constructor|constructor].
  destruct (works (ESet dev k port)); [|constructor].
  destruct (forallb works _).
  - assert (Fi : Forall (on_dev dev) (match o_ip o with Some a => [EExec ["ip"; "address"; "add"; a; "dev"; dev]] | None => [] end)).
    { destruct (o_ip o); repeat constructor. exists "address", "add". reflexivity. }
    destruct binds.
    + pose proof (peers_on f dev (o_peers o) [] 0%nat) as F. destruct (setup_peers f dev [] 0 (o_peers o)) as [es r]. cbn [fst] in *.
      constructor; [reflexivity|]. apply Forall_app. auto.
    + cbn [fst]. constructor; [reflexivity|exact Fi].
  - repeat constructor.
Qed.

(** C72: a device that exists is not touched, nor is anything done if the keys cannot be read *)
Theorem C72_existing_untouched f o : devs (dev_of o) = true -> exchange f o = ([], XFailed, []).
Proof.
  intros D. unfold Rp.exchange. fold (dev_of o). unfold open_device. rewrite D.
  destruct (load_b64 junk WG_B64_LEN rand_sk (join (o_dir o) "wgsk") f), (load SSK_LEN (join (o_dir o) "pqsk") f), (load SPK_LEN (join (o_dir o) "pqpk") f); reflexivity.
Qed.
(** C72: whatever happens, nothing is done to another device *)
Theorem C72_only_that_device f o es r fin : exchange f o = (es, r, fin) -> Forall (on_dev (dev_of o)) (es ++ fin).
Proof.
  unfold Rp.exchange. fold (dev_of o). intros E. apply Forall_app.
  destruct (load_b64 _ _ _ _ f) as [k|]; [|assert (es = [] /\ fin = []) as [-> ->] by (split; congruence); auto].
  destruct (load SSK_LEN _ f) as [sk|]; [|assert (es = [] /\ fin = []) as [-> ->] by (split; congruence); auto].
  destruct (load SPK_LEN _ f) as [pk|]; [|assert (es = [] /\ fin = []) as [-> ->] by (split; congruence); auto].
  assert (Fo : Forall (on_dev (dev_of o)) (fst (open_device works devs (dev_of o)))).
  { unfold open_device. destruct (devs _); [constructor|]. destruct (works (EAdd _)); [|constructor]. destruct (works (EHandle _)); [destruct (works (EUp _))|]; repeat constructor. }
  destruct (open_device works devs (dev_of o)) as [e0 ok]. cbn [fst] in Fo. destruct ok.
  - pose proof (setup_on f o (dev_of o) k sk pk) as Fs. destruct (setup f o (dev_of o) k sk pk) as [e1 r1]. cbn [fst] in Fs.
    assert (es = e0 ++ e1) by congruence. subst es. split; [apply Forall_app; auto|].
    assert (X : fin = match r1 with XPanicked => [] | _ => [EDel (dev_of o)] end) by congruence. rewrite X. destruct r1; repeat constructor.
  - assert (es = e0 /\ fin = []) as [-> ->] by (split; congruence). auto.
Qed.
(** C72: a device that has been brought up is removed in the end, unless there is a panic; and only a device that was created here.
    Missing: a device that was created and could not be brought up. *)
Theorem C72_removed_partial f o es r fin : exchange f o = (es, r, fin) -> r <> XPanicked ->
  (fin = [EDel (dev_of o)] <-> In (EUp (dev_of o)) es) /\
  (fin = [] \/ exists es', es = EAdd (dev_of o) :: EUp (dev_of o) :: es' /\ fin = [EDel (dev_of o)]).
Proof.
  unfold Rp.exchange. fold (dev_of o). intros E Np.
  assert (No : es = [] -> fin = [] -> (fin = [EDel (dev_of o)] <-> In (EUp (dev_of o)) es) /\ (fin = [] \/ exists es', es = EAdd (dev_of o) :: EUp (dev_of o) :: es' /\ fin = [EDel (dev_of o)])).
  { intros -> ->. split; [split; [discriminate|contradiction]|now left]. }
  destruct (load_b64 _ _ _ _ f) as [k|]; [|apply No; congruence]. destruct (load SSK_LEN _ f) as [sk|]; [|apply No; congruence].
  destruct (load SPK_LEN _ f) as [pk|]; [|apply No; congruence].
  unfold open_device in E. destruct (devs _); [apply No; congruence|]. destruct (works (EAdd _)); [|apply No; congruence].
  assert (Add : (es, r, fin) = ([EAdd (dev_of o)], XFailed, []) -> (fin = [EDel (dev_of o)] <-> In (EUp (dev_of o)) es) /\ (fin = [] \/ exists es', es = EAdd (dev_of o) :: EUp (dev_of o) :: es' /\ fin = [EDel (dev_of o)])).
  { intros X. assert (es = [EAdd (dev_of o)] /\ fin = []) as [-> ->] by (split; congruence).
    split; [split; [discriminate|intros [Y|[]]; discriminate]|now left]. }
  destruct (works (EHandle _)); [|apply Add; congruence]. destruct (works (EUp _)); [|apply Add; congruence].
  destruct (setup f o (dev_of o) k sk pk) as [e1 r1]. assert (r1 = r) by congruence. subst r1.
  assert (X : fin = [EDel (dev_of o)]) by (destruct r; congruence).
  assert (Y : es = EAdd (dev_of o) :: EUp (dev_of o) :: e1) by (cbn [List.app] in E; congruence). subst es fin.
  split; [split; [intros _; right; now left|reflexivity]|right; eauto].
Qed.
(** C72: a device that was created and cannot be brought up is left behind *)
Theorem C72_left_refuted f o wgsk sk pk : length rand_sk = 32%nat ->
  key_in f (join (o_dir o) "wgsk") wgsk ->
  contents f (join (o_dir o) "pqsk") = Some sk -> N.of_nat (length sk) = 13608%N ->
  contents f (join (o_dir o) "pqpk") = Some pk -> N.of_nat (length pk) = 524160%N ->
  devs (dev_of o) = false -> works (EAdd (dev_of o)) = true -> works (EUp (dev_of o)) = false ->
  exchange f o = ([EAdd (dev_of o)], XFailed, []).
Proof.
  intros Lsk Kw Csk Lns Cpk Lnp D A U. unfold Rp.exchange. fold (dev_of o). rewrite (key_loads _ _ _ _ Kw Lsk).
  assert (Ls : load SSK_LEN (join (o_dir o) "pqsk") f = Some sk) by (change 13608%N with SSK_LEN in Lns; unfold load; rewrite Csk, (proj2 (N.eqb_eq _ _) Lns); reflexivity). rewrite Ls.
  assert (Lp : load SPK_LEN (join (o_dir o) "pqpk") f = Some pk) by (change 524160%N with SPK_LEN in Lnp; unfold load; rewrite Cpk, (proj2 (N.eqb_eq _ _) Lnp); reflexivity). rewrite Lp.
  unfold open_device. rewrite D, A, U. destruct (works (EHandle _)); reflexivity.
Qed.

(** C71: with port 65535 there is a panic when the device has been created already, or WireGuard is told port 0 *)
Theorem C71_port_refuted f o a wgsk sk pk : length rand_sk = 32%nat -> (forall e, works e = true) -> devs (dev_of o) = false ->
  key_in f (join (o_dir o) "wgsk") wgsk ->
  contents f (join (o_dir o) "pqsk") = Some sk -> N.of_nat (length sk) = 13608%N ->
  contents f (join (o_dir o) "pqpk") = Some pk -> N.of_nat (length pk) = 524160%N ->
  o_listen o = Some a -> a_port a = 65535%N ->
  let '(es, r, _) := exchange f o in
  if checks then es = [EAdd (dev_of o); EUp (dev_of o)] /\ r = XPanicked else exists es', es = EAdd (dev_of o) :: EUp (dev_of o) :: ESet (dev_of o) wgsk (Some 0%N) :: es'.
Proof.
  intros Lsk W D Kw Csk Lns Cpk Lnp El Ep. unfold Rp.exchange. fold (dev_of o). rewrite (key_loads _ _ _ _ Kw Lsk).
  assert (Ls : load SSK_LEN (join (o_dir o) "pqsk") f = Some sk) by (change 13608%N with SSK_LEN in Lns; unfold load; rewrite Csk, (proj2 (N.eqb_eq _ _) Lns); reflexivity). rewrite Ls.
  assert (Lp : load SPK_LEN (join (o_dir o) "pqpk") f = Some pk) by (change 524160%N with SPK_LEN in Lnp; unfold load; rewrite Cpk, (proj2 (N.eqb_eq _ _) Lnp); reflexivity). rewrite Lp.
  unfold open_device. rewrite D, !W. unfold Rp.setup. rewrite El. unfold next_port. rewrite Ep, N.eqb_refl. destruct checks; [split; reflexivity|].
  rewrite W. destruct (forallb works _); [destruct binds; [destruct (Rp.setup_peers show_addr show_n works false junk rand_psk f (dev_of o) [] 0 (o_peers o)) as [es r]|]|]; eexists; reflexivity.
Qed.
(** C71: a peer at an address that is bound to an interface: WireGuard is told the address without the interface *)
Theorem C71_scope_refuted f dev rnd p s a : setup_peer f dev rnd p = Ok s -> x_endpoint p = Some a -> a_port a <> 65535%N -> a_scope a <> 0%N ->
  exists id rest, s_wg s = Some (dev, id, "endpoint" :: show_addr {| a_ip := a_ip a; a_port := a_port a + 1; a_scope := 0 |} :: rest).
Proof.
  intros E Ea Ep _. unfold Rp.setup_peer in E. unfold extra_params, next_port in E. rewrite Ea, (proj2 (N.eqb_neq _ _) Ep) in E.
  destruct (contents f (join (x_dir p) "wgpk")) as [t|]; [|discriminate]. destruct (load SPK_LEN _ f); [|discriminate].
  destruct (if exists_ f _ then _ else _) as [psk|]; [|discriminate]. destruct (b64_decode junk t (zeros 32)) as [id|]; [|discriminate].
  match type of E with Ok ?x = Ok ?y => assert (X : x = y) by congruence end. rewrite <- X. cbn [s_wg List.app]. eauto.
Qed.

Lemma networks_whole s : forall cur, no_comma s = true -> networks cur s = [(cur ++ s)%string].
Proof.
  induction s as [|c s IH]; intros cur H; cbn [networks no_comma] in *.
  - f_equal. induction cur; cbn [String.append]; congruence.
  - apply andb_prop in H as [H1 H2]. apply negb_true_iff in H1. rewrite H1, IH by exact H2. now rewrite append_assoc.
Qed.
(** C71: each network of a peer is routed to the device.  Missing: a peer with several networks. *)
Theorem C71_routes_partial f o es s fin : ports_right o -> length rand_sk = 32%nat -> (forall i, length (rand_psk i) = 32%nat) ->
  exchange f o = (es, XRunning s, fin) ->
  forall p ips n, In p (o_peers o) -> x_ips p = Some ips -> no_comma ips = true -> In n (networks "" ips) ->
  In (EExec ["ip"; "route"; "replace"; n; "dev"; dev_of o]) es.
Proof.
  intros Pr L1 L2 E p ips n Ip Ei Nc In_. destruct (C71_runs_as_asked_partial f o es s fin Pr L1 L2 E) as (_ & (key & _ & ->) & _).
  rewrite (networks_whole ips "" Nc) in In_. destruct In_ as [<-|[]]. apply in_or_app. right. apply in_or_app. right.
  apply in_flat_map. exists p. split; [exact Ip|]. rewrite Ei. now left.
Qed.
Lemma no_comma_networks ips n : forall cur, In n (networks cur ips) -> no_comma cur = true -> no_comma n = true.
Proof.
  assert (A : forall a b, no_comma (a ++ b)%string = no_comma a && no_comma b).
  { induction a as [|c a IH]; intros b; cbn [String.append no_comma]; [reflexivity|]. now rewrite IH, andb_assoc. }
  induction ips as [|c s IH]; intros cur I' H; cbn [networks] in I'.
  - destruct I' as [<-|[]]. exact H.
  - destruct (Ascii.eqb c ",") eqn:Ec.
    + destruct I' as [<-|I']; [exact H|]. now apply (IH "").
    + apply (IH _ I'). rewrite A, H. cbn [no_comma]. now rewrite Ec.
Qed.
(** C71: a peer with several networks: `ip` is given them as one, and no route for any of them, if there is no other peer with it *)
Theorem C71_routes_refuted f o es s fin : ports_right o -> length rand_sk = 32%nat -> (forall i, length (rand_psk i) = 32%nat) ->
  exchange f o = (es, XRunning s, fin) ->
  (forall p ips, In p (o_peers o) -> x_ips p = Some ips -> no_comma ips = false) ->
  forall n, no_comma n = true -> ~ In (EExec ["ip"; "route"; "replace"; n; "dev"; dev_of o]) es.
Proof.
  intros Pr L1 L2 E H n Nc I'. destruct (C71_runs_as_asked_partial f o es s fin Pr L1 L2 E) as (_ & (key & _ & ->) & _).
  apply in_app_or in I' as [I'|I']; [destruct I' as [X|[X|[X|[]]]]; discriminate|].
  apply in_app_or in I' as [I'|I']; [unfold ip_args in I'; destruct (o_ip o); [destruct I' as [X|[]]; discriminate|contradiction]|].
  apply in_flat_map in I' as (p & Ip & I'). destruct (x_ips p) as [ips|] eqn:Ei; [|contradiction]. destruct I' as [X|[]].
  assert (ips = n) by congruence. subst ips. rewrite (H p n Ip Ei) in Nc. discriminate.
Qed.

(** C71: a configuration file does what the same options do on the command line *)
Theorem C71_config_same f verbose file d o : contents f file = Some d -> toml d = Some o ->
  rp_exchange_config f verbose file = rp_exchange show_addr show_n works devs checks junk rand_sk binds rand_psk f (o_verbose o || verbose) o.
Proof. intros C T. unfold Rp.rp_exchange_config, rp_exchange. now rewrite C, T. Qed.
(** C71: a configuration file that cannot be read or understood makes the program panic *)
Theorem C71_config_refuted f verbose file : (forall d, contents f file = Some d -> toml d = None) ->
  rp_exchange_config f verbose file = ([], XPanicked, []).
Proof. intros H. unfold Rp.rp_exchange_config. destruct (contents f file) as [d|]; [now rewrite (H d eq_refl)|reflexivity]. Qed.

(** * C73 *)
(** C73: a peer of a running server is named to WireGuard by the text in its file *)
Theorem C73_peer_named f o es s fin : ports_right o -> length rand_sk = 32%nat -> (forall i, length (rand_psk i) = 32%nat) ->
  exchange f o = (es, XRunning s, fin) ->
  Forall2 (fun p sp => exists id, s_wg sp = Some (dev_of o, id, told p) /\ forall k psk, key_in f (join (x_dir p) "wgpk") k ->
     exists c, wg_set (dev_of o) id psk (told p) = Some c /\
       wc_argv c = ["wg"; "set"; dev_of o; "peer"; string_of_list_byte (b64_text k); "preshared-key"; "/dev/stdin"] ++ told p) (o_peers o) (xs_peers s).
Proof.
  intros Pr L1 L2 E. destruct (C71_runs_as_asked_partial f o es s fin Pr L1 L2 E) as (_ & _ & _ & _ & _ & _ & F & _).
  induction F as [|p sp lp ls H F IH]; constructor; [|exact IH]. destruct H as (_ & (id & W & Li & Hid) & _). exists id. split; [exact W|].
  intros k psk K. rewrite <- (Hid k K). unfold wg_set, b64_encode at 1. rewrite b64_text_length, Li.
  change (Nat.leb (4 * ((32 + 2) / 3)) MAX_B64_KEY_SIZE) with true. cbn iota. eexists. split; [reflexivity|]. reflexivity.
Qed.
End Exchange.
Print Assumptions C71_runs_as_asked_partial.
Print Assumptions C71_starts.
Print Assumptions C72_existing_untouched.
Print Assumptions C72_only_that_device.
Print Assumptions C72_removed_partial.
Print Assumptions C72_left_refuted.
Print Assumptions C71_port_refuted.
Print Assumptions C71_scope_refuted.
Print Assumptions C71_routes_partial.
Print Assumptions C71_routes_refuted.
Print Assumptions C71_config_same.
Print Assumptions C71_config_refuted.
Print Assumptions C73_peer_named.

(** C73: a key is handed to `wg` for the device and the peer it is meant for, with the further parameters, and the key itself is what `wg`
    reads from its standard input, in Base64.  Partial: success is also reported if `wg` has not taken it, see [C73_status_refuted] *)
Theorem C73_hands_over_partial : forall started reads status dev id psk extra c,
  length id = 32%nat -> length psk = 32%nat ->
  set_psk_native started reads status dev id psk extra = Ok (Some c) <->
  started = true /\ wc_argv c = ["wg"; "set"; dev; "peer"; string_of_list_byte (b64_text id); "preshared-key"; "/dev/stdin"] ++ extra /\ wc_stdin c = b64_text psk.
Proof.
  intros started reads status dev id psk extra [argv stdin] Li Lp. unfold set_psk_native, wg_set, b64_encode. rewrite !b64_text_length, Li, Lp.
  change (Nat.leb (4 * ((32 + 2) / 3)) MAX_B64_KEY_SIZE) with true. cbn iota. cbn [wc_argv wc_stdin]. destruct started.
  - split; [intros E; match type of E with Ok (Some ?x) = Ok (Some ?y) => assert (X : x = y) by congruence end; injection X as <- <-; auto|].
    intros (_ & -> & ->). reflexivity.
  - split; [discriminate|intros [X _]; discriminate X].
Qed.
Print Assumptions C73_hands_over_partial.
(** C73: the key does not show in the arguments, which everyone can see *)
Theorem C73_key_not_in_arguments : forall dev id extra psk psk' c c',
  wg_set dev id psk extra = Some c -> wg_set dev id psk' extra = Some c' -> wc_argv c = wc_argv c'.
Proof.
  intros dev id extra psk psk' c c'. unfold wg_set. destruct (b64_encode MAX_B64_KEY_SIZE id) as [t|]; [|discriminate]. intros E E'.
  match type of E with Some ?x = _ => assert (X : x = c) by congruence end. match type of E' with Some ?x = _ => assert (X' : x = c') by congruence end.
  now rewrite <- X, <- X'.
Qed.
Print Assumptions C73_key_not_in_arguments.
(** C73: no key and no peer makes it panic *)
Theorem C73_total : forall started reads status dev id psk extra, length id = 32%nat -> set_psk_native started reads status dev id psk extra <> Panic.
Proof.
  intros started reads status dev id psk extra Li. unfold set_psk_native, wg_set, b64_encode at 1. rewrite b64_text_length, Li.
  change (Nat.leb (4 * ((32 + 2) / 3)) MAX_B64_KEY_SIZE) with true. cbn iota. destruct started; discriminate.
Qed.
Print Assumptions C73_total.
(** C73: success is reported although `wg` did not take the key, or failed *)
Theorem C73_status_refuted : forall dev id psk extra, length id = 32%nat ->
  exists c, set_psk_native true false false dev id psk extra = Ok (Some c).
Proof.
  intros dev id psk extra Li. unfold set_psk_native, wg_set, b64_encode at 1. rewrite b64_text_length, Li.
  change (Nat.leb (4 * ((32 + 2) / 3)) MAX_B64_KEY_SIZE) with true. cbn iota. eauto.
Qed.
Print Assumptions C73_status_refuted.

(** A machine with keys and a peer, which rp sets up *)
Definition rp_fs : fs := fun p =>
  if String.eqb p "/k/wgsk" then Some (NFile M_SECRET (b64_text (repeat x41 32)))
  else if String.eqb p "/k/pqsk" then Some (NFile M_SECRET (repeat x53 (N.to_nat SSK_LEN)))
  else if String.eqb p "/k/pqpk" then Some (NFile M_PUBLIC (repeat x50 (N.to_nat SPK_LEN)))
  else if String.eqb p "/a/wgpk" then Some (NFile M_PUBLIC (b64_text (repeat x42 32)))
  else if String.eqb p "/a/pqpk" then Some (NFile M_PUBLIC (repeat x51 (N.to_nat SPK_LEN)))
  else None.
Definition rp_opts : xopts :=
  {| o_verbose := false; o_dir := "/k"; o_dev := Some "rp0"; o_ip := Some "10.0.0.1/8"; o_listen := Some {| a_ip := "192.0.2.1"; a_port := 9999; a_scope := 0 |};
     o_peers := [{| x_dir := "/a"; x_endpoint := Some {| a_ip := "192.0.2.2"; a_port := 9999; a_scope := 0 |}; x_keepalive := Some 25%N; x_ips := Some "10.0.0.0/8"; x_v03 := false |}] |}.
Example rp_ports : ports_right rp_opts.
Proof.
  split.
  - intros a E. assert (a = {| a_ip := "192.0.2.1"; a_port := 9999; a_scope := 0 |}) as -> by (cbn [rp_opts o_listen] in E; congruence). discriminate.
  - intros p a [<-|[]] E. assert (a = {| a_ip := "192.0.2.2"; a_port := 9999; a_scope := 0 |}) as -> by (cbn [x_endpoint] in E; congruence). split; [discriminate|reflexivity].
Qed.
Lemma rp_key p k : contents rp_fs p = Some (b64_text (repeat k 32)) -> key_in rp_fs p (repeat k 32).
Proof. intros H. split; [exact H|apply repeat_length]. Qed.
Example C71_case show_addr show_n checks junk :
  exists es s fin, Rp.exchange show_addr show_n (fun _ => true) (fun _ => false) checks junk (zeros 32) true (fun _ => zeros 32) rp_fs rp_opts = (es, XRunning s, fin) /\
    List.length (xs_peers s) = 1%nat /\ In (EExec ["ip"; "route"; "replace"; "10.0.0.0/8"; "dev"; "rp0"]) es.
Proof.
  destruct (C71_starts show_addr show_n (fun _ => true) (fun _ => false) checks junk (zeros 32) true (fun _ => zeros 32) rp_fs rp_opts
    [repeat x51 (N.to_nat SPK_LEN)] (repeat x41 32) (repeat x53 (N.to_nat SSK_LEN)) (repeat x50 (N.to_nat SPK_LEN)) rp_ports) as (es & s & fin & E);
    try reflexivity; try (rewrite repeat_length; apply N2Nat.id).
  - now apply rp_key.
  - constructor; [|constructor]. split; [reflexivity|]. split; [rewrite repeat_length; apply N2Nat.id|]. split; [exists (repeat x42 32); now apply rp_key|now left].
  - constructor; [auto|constructor].
  - exists es, s, fin. split; [exact E|]. split.
    + destruct (C71_runs_as_asked_partial show_addr show_n (fun _ => true) (fun _ => false) checks junk (zeros 32) true (fun _ => zeros 32) rp_fs rp_opts es s fin rp_ports eq_refl (fun _ => eq_refl) E) as (_ & _ & _ & _ & _ & _ & F & _).
      cbn [rp_opts o_peers] in F. inversion F as [|? ? ? ? Hx F' Ea Eb]. inversion F'. reflexivity.
    + apply (C71_routes_partial show_addr show_n (fun _ => true) (fun _ => false) checks junk (zeros 32) true (fun _ => zeros 32) rp_fs rp_opts es s fin rp_ports eq_refl (fun _ => eq_refl) E
        {| x_dir := "/a"; x_endpoint := Some {| a_ip := "192.0.2.2"; a_port := 9999; a_scope := 0 |}; x_keepalive := Some 25%N; x_ips := Some "10.0.0.0/8"; x_v03 := false |} "10.0.0.0/8" "10.0.0.0/8");
        [now left|reflexivity|reflexivity|now left].
Qed.
(** A key for the peer with id "BBB..." *)
Example C73_case :
  set_psk_native true true true "rp0" (repeat x42 32) (repeat x43 32) ["allowed-ips"; "10.0.0.0/8"] =
  Ok (Some {| wc_argv := ["wg"; "set"; "rp0"; "peer"; "QkJCQkJCQkJCQkJCQkJCQkJCQkJCQkJCQkJCQkJCQkI="; "preshared-key"; "/dev/stdin"; "allowed-ips"; "10.0.0.0/8"];
              wc_stdin := list_byte_of_string "Q0NDQ0NDQ0NDQ0NDQ0NDQ0NDQ0NDQ0NDQ0NDQ0NDQ0M=" |}).
Proof. vm_compute. reflexivity. Qed.
