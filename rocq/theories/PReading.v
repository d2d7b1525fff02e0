(** Theorems about errors of system calls and reading to the end (C102). *)
From Coq Require Import ZArith.
From Verif Require Import Base Lpe Reading Builder.

(** * Specification *)

(** The system call was interrupted by a signal. *)
Definition interrupted {R} (x : result R) : Prop := exists e, x = RErr e /\ ie_kind e = Some KInterrupted.
(** What the caller is to see when this is the first result that is not an interruption; [true]: not waiting is no error. *)
Definition seen {R} (nonblocking : bool) (x : result R) (y : result (option R)) : Prop :=
  match x with
  | RVal v => y = RVal (Some v)
  | RErr e => if nonblocking then (ie_kind e = Some KWouldBlock -> y = RVal None) /\ (ie_kind e <> Some KWouldBlock -> y = RErr e) else y = RErr e
  end.
Definition call_of {R} (nonblocking : bool) (calls : list (result R)) :=
  if nonblocking then nonblocking_handle_io_errors calls else handle_interrupted calls.

(** * C102: repeating *)

Lemma interrupted_step R b (x : result R) l : interrupted x -> call_of b (x :: l) = call_of b l.
Proof. intros (e & -> & K). unfold call_of. destruct b; cbn; now rewrite K. Qed.

(** C102: whatever a function gives when it is called one time after the other: it is called until it is not interrupted, and not once
    more; the value or error it gives then is what the caller sees. *)
Theorem C102_repeats : forall R b (calls : list (result R)),
  (exists ints x rest y, calls = ints ++ x :: rest /\ Forall interrupted ints /\ ~ interrupted x /\ seen b x y /\ call_of b calls = (Some y, rest)) \/
  (Forall interrupted calls /\ call_of b calls = (None, [])).
Proof.
  intros R b calls. induction calls as [|x l IH].
  - right. split; [constructor|]. destruct b; reflexivity.
  - assert (D : interrupted x \/ ~ interrupted x).
    { destruct x as [v|e]; [right; intros (e & E & _); discriminate|]. destruct (ie_kind e) as [[| | |]|] eqn:K;
      first [left; now exists e | right; intros (e' & E & K'); assert (e = e') by congruence; subst; congruence]. }
    destruct D as [D|D].
    + destruct IH as [(ints & y & rest & z & -> & F & N & S & E)|(F & E)].
      * left. exists (x :: ints), y, rest, z. split; [reflexivity|]. split; [now constructor|]. split; [exact N|]. split; [exact S|].
        now rewrite (interrupted_step _ _ _ _ D).
      * right. split; [now constructor|]. now rewrite (interrupted_step _ _ _ _ D).
    + left. destruct x as [v|e].
      * exists [], (RVal v), l, (RVal (Some v)). split; [reflexivity|]. split; [constructor|]. split; [exact D|]. split; [reflexivity|]. now destruct b.
      * exists [], (RErr e), l.
        destruct b; cbn [seen call_of].
        -- exists (if match ie_kind e with Some KWouldBlock => true | _ => false end then RVal None else RErr e).
           split; [reflexivity|]. split; [constructor|]. split; [exact D|]. cbn. destruct (ie_kind e) as [[| | |]|] eqn:K;
             try (split; [split; congruence|reflexivity]). elim D. now exists e.
        -- exists (RErr e). split; [reflexivity|]. split; [constructor|]. split; [exact D|]. split; [reflexivity|]. cbn.
           destruct (ie_kind e) as [[| | |]|] eqn:K; try reflexivity. elim D. now exists e.
Qed.
Print Assumptions C102_repeats.

(** C102: only an error of the kind asked for is replaced; values and other errors come out as they are. *)
Theorem C102_substitute : forall R k (v : R) x,
  (forall w, x = RVal w -> substitute_for_ioerr_kind k v x = RVal w) /\
  (forall e, x = RErr e -> ie_kind e = Some k -> substitute_for_ioerr_kind k v x = RVal v) /\
  (forall e, x = RErr e -> ie_kind e <> Some k -> substitute_for_ioerr_kind k v x = RErr e).
Proof.
  intros R k v x. repeat split; intros; subst; unfold substitute_for_ioerr_kind, hint; [reflexivity|now rewrite H0; destruct k|].
  destruct (ie_kind e) as [j|]; [|reflexivity]. destruct j, k; cbn; congruence.
Qed.
Print Assumptions C102_substitute.

(** The two named special cases, for the kinds [Interrupted] and [WouldBlock]: a value stays, and so do all other errors. *)
Theorem C102_substitute_named : forall R (v : R) x,
  (substitute_for_ioerr_interrupted v x = match x with RErr e => match ie_kind e with Some KInterrupted => RVal v | _ => x end | _ => x end) /\
  (substitute_for_ioerr_wouldblock v x = match x with RErr e => match ie_kind e with Some KWouldBlock => RVal v | _ => x end | _ => x end).
Proof.
  intros R v x. unfold substitute_for_ioerr_interrupted, substitute_for_ioerr_wouldblock. destruct (C102_substitute R KInterrupted v x) as (A & B & C).
  destruct (C102_substitute R KWouldBlock v x) as (A' & B' & C'). destruct x as [w|e]; [split; [now apply A|now apply A']|].
  split.
  - destruct (ie_kind e) as [[]|] eqn:K; try (apply C; [reflexivity|congruence]). now apply (B e).
  - destruct (ie_kind e) as [[]|] eqn:K; try (apply C'; [reflexivity|congruence]). now apply (B' e).
Qed.
Print Assumptions C102_substitute_named.

(** * C102: reading to the end *)

Lemma read1_piece k n src : 0 < n -> src <> [] -> exists d, read1 (Piece k) n src = RVal d /\ 0 < length d <= n /\ d = firstn (length d) src /\ length d <= length src.
Proof.
  intros Hn Hs. exists (firstn (Nat.min (S k) n) src). split; [reflexivity|]. destruct src as [|a src]; [congruence|].
  rewrite firstn_length. cbn [length]. split; [lia|]. split; [|lia].
  destruct (Nat.le_ge_cases (Nat.min (S k) n) (S (length src))) as [L|L].
  - now rewrite (Nat.min_l _ _ L).
  - rewrite (Nat.min_r _ _ L). rewrite firstn_all2 by (cbn [length]; lia). now rewrite (firstn_all2 (n := S (length src))) by (cbn [length]; lia).
Qed.
Lemma read1_end k n : read1 (Piece k) n [] = RVal [].
Proof. unfold read1. now rewrite firstn_nil. Qed.

(** What reading gives, whatever the calls do *)
Lemma read_exact_sound : forall cs n src got s l o, read_exact cs n src = (got, s, l, o) ->
  src = got ++ s /\ length got <= n /\ (exists used, cs = used ++ l) /\
  match o with
  | None => length got < n /\ l = []
  | Some (Done _) => length got = n
  | Some ShortFile => s = [] /\ length got < n
  | Some (Broken e) => In (Fails e) cs /\ ie_kind e <> Some KInterrupted
  | Some TooLong => False
  end.
Proof.
  induction cs as [|c cs IH]; intros n src got s l o H; destruct n as [|n]; cbn [read_exact] in H.
  - inversion H; subst. repeat split; auto; now exists [].
  - inversion H; subst. cbn. split; [reflexivity|]. split; [lia|]. split; [now exists []|]. split; [lia|reflexivity].
  - inversion H; subst. repeat split; auto; now exists [].
  - destruct c as [k|e].
    + destruct src as [|a src].
      * rewrite read1_end in H. inversion H; subst. cbn. split; [reflexivity|]. split; [lia|]. split; [now exists [Piece k]|]. split; [reflexivity|lia].
      * destruct (read1_piece k (S n) (a :: src)) as (d & E & Ld & Ed & Ls); [lia|discriminate|]. rewrite E in H. destruct d as [|b d]; [cbn in Ld; lia|].
        remember (b :: d) as d0. clear Heqd0.
        destruct (read_exact cs (S n - length d0) (skipn (length d0) (a :: src))) as [[[g s'] l'] o'] eqn:R. apply IH in R.
        inversion H; subst. destruct R as (Es & Lg & (u & ->) & O). rewrite app_length.
        split; [rewrite <- app_assoc, <- Es; rewrite <- (firstn_skipn (length d0) (a :: src)) at 1; now rewrite <- Ed|]. split; [lia|]. split; [now exists (Piece k :: u)|].
        destruct o as [[| | |]|]; try lia; try (destruct O; split; [|lia]; auto); [destruct O; split; [right|]; auto|destruct O; split; auto; lia].
    + cbn [read1] in H. assert (D : ie_kind e = Some KInterrupted \/ ie_kind e <> Some KInterrupted) by (destruct (ie_kind e) as [[| | |]|]; auto; right; congruence).
      destruct D as [D|D].
      * rewrite D in H. apply IH in H. destruct H as (Es & Lg & (u & ->) & O). split; [exact Es|]. split; [exact Lg|]. split; [now exists (Fails e :: u)|].
        destruct o as [[| | |]|]; auto. destruct O; split; [right|]; auto.
      * assert (H' : ([], src, cs, Some (Broken e)) = (got, s, l, o)) by (destruct (ie_kind e) as [[| | |]|]; congruence).
        inversion H'; subst. cbn. split; [reflexivity|]. split; [lia|]. split; [now exists [Fails e]|]. split; [now left|exact D].
Qed.

(** C102: whatever the single reads give: the buffer is only filled with the first bytes of the source, and success means that the source
    was exactly as long as the buffer and all of it was read; every error is what it says. *)
Theorem C102_exact : forall cs buf src buf' o, read_exact_to_end cs buf src = (buf', o) ->
  (exists k, k <= length src /\ k <= length buf /\ buf' = firstn k src ++ skipn k buf) /\
  (forall n, o = Some (Done n) -> n = length buf /\ buf' = src) /\
  (o = Some TooLong -> length buf < length src /\ buf' = firstn (length buf) src) /\
  (o = Some ShortFile -> length src < length buf) /\
  (forall e, o = Some (Broken e) -> In (Fails e) cs).
Proof.
  intros cs buf src buf' o H. unfold read_exact_to_end in H. destruct (read_exact cs (length buf) src) as [[[got s] l] o1] eqn:R.
  pose proof (read_exact_sound _ _ _ _ _ _ _ R) as (Es & Lg & (u & Eu) & O).
  assert (Eb : buf' = got ++ skipn (length got) buf) by congruence.
  assert (Eo : o = match o1 with Some (Done _) => at_end l s (length buf) | _ => o1 end) by congruence. clear H R.
  split. { exists (length got). rewrite Es, app_length, firstn_app, Nat.sub_diag, firstn_all, firstn_O, app_nil_r. split; [lia|]. split; [lia|]. exact Eb. }
  assert (Full : length got = length buf -> buf' = got) by (intros L; rewrite Eb, skipn_all2 by lia; apply app_nil_r).
  destruct o1 as [[m| | |e]|]; try contradiction; subst o.
  - specialize (Full O). unfold at_end. destruct l as [|c l]; [repeat split; intros; discriminate|]. destruct c as [k|e].
    + destruct s as [|a s].
      * rewrite read1_end. repeat split; intros; try discriminate; [congruence|]. now rewrite Full, Es, app_nil_r.
      * destruct (read1_piece k 8 (a :: s)) as (d & -> & Ld & _); [lia|discriminate|]. destruct d; [cbn in Ld; lia|]. repeat split; intros; try discriminate.
        -- rewrite Es, app_length. cbn. lia.
        -- rewrite Full, Es, <- O, firstn_app, Nat.sub_diag, firstn_all, firstn_O, app_nil_r. reflexivity.
    + cbn [read1]. repeat split; intros; try discriminate. assert (e0 = e) by congruence. subst. apply in_or_app. right. now left.
  - repeat split; intros; try discriminate. destruct O as [-> O]. rewrite app_nil_r in Es. subst src. exact O.
  - repeat split; intros; try discriminate. destruct O as [O _]. congruence.
  - repeat split; intros; discriminate.
Qed.
Print Assumptions C102_exact.

(** Calls that give data or are interrupted *)
Definition is_piece (c : rcall) : bool := match c with Piece _ => true | Fails _ => false end.
Definition harmless (c : rcall) : Prop := match c with Piece _ => True | Fails e => ie_kind e = Some KInterrupted end.
Definition pieces (cs : list rcall) : nat := length (filter is_piece cs).

Lemma read_exact_complete : forall cs n src, Forall harmless cs -> n <= pieces cs -> n <= length src ->
  exists l k, read_exact cs n src = (firstn n src, skipn n src, l, Some (Done k)) /\ pieces cs <= n + pieces l /\ exists u, cs = u ++ l.
Proof.
  induction cs as [|c cs IH]; intros n src F Lp Ls; destruct n as [|n]; cbn [read_exact].
  - exists [], 0. rewrite firstn_O. split; [reflexivity|]. split; [cbn; lia|now exists []].
  - cbn in Lp. lia.
  - exists (c :: cs), 0. rewrite firstn_O. split; [reflexivity|]. split; [lia|now exists []].
  - assert (Fc : harmless c) by (now inversion F). assert (F' : Forall harmless cs) by (now inversion F). destruct c as [k|e].
    + destruct src as [|a src]; [cbn in Ls; lia|]. destruct (read1_piece k (S n) (a :: src)) as (d & -> & Ld & Ed & Ld'); [lia|discriminate|].
      assert (Pc : pieces (Piece k :: cs) = S (pieces cs)) by reflexivity. rewrite Pc in *. destruct d as [|b d]; [cbn in Ld; lia|].
      remember (b :: d) as d0. clear Heqd0. remember (a :: src) as sr. clear Heqsr.
      destruct (IH (S n - length d0) (skipn (length d0) sr) F') as (l & j & -> & Pl & u & Eu); [lia|rewrite skipn_length; lia|].
      exists l, j. split; [|split; [lia|exists (Piece k :: u); now rewrite Eu]].
      assert (X : firstn (S n) sr = d0 ++ firstn (S n - length d0) (skipn (length d0) sr)).
      { rewrite <- (firstn_skipn (length d0) sr) at 1. rewrite firstn_app, firstn_firstn, firstn_length, (Nat.min_l (length d0) (length sr)) by lia.
        rewrite Nat.min_r by lia. now rewrite <- Ed. }
      assert (Y : skipn (S n) sr = skipn (S n - length d0) (skipn (length d0) sr)).
      { clear -Ld. revert sr. generalize dependent (length d0). intros q Lq. generalize dependent (S n). intros m Lq. revert m Lq. induction q as [|q IHq]; intros m Lq sr.
        - now rewrite Nat.sub_0_r.
        - destruct m as [|m]; [lia|]. destruct sr as [|z sr]; [now rewrite !skipn_nil|]. cbn [skipn Nat.sub]. destruct q as [|q].
          + now rewrite Nat.sub_0_r.
          + apply IHq. lia. }
      now rewrite X, Y.
    + cbn [read1 harmless] in *. rewrite Fc. assert (Pc : pieces (Fails e :: cs) = pieces cs) by reflexivity. rewrite Pc in *.
      destruct (IH (S n) src F' Lp Ls) as (l & j & E & Pl & u & Eu). exists l, j. split; [exact E|]. split; [exact Pl|]. exists (Fails e :: u). now rewrite Eu.
Qed.

(** C102: when reads give data in pieces of any size or are interrupted, a source of the right length is read completely; only the very last
    read, which looks for the end, decides: it must not be interrupted. *)
Theorem C102_pieces_partial : forall cs buf src, Forall harmless cs -> length buf < pieces cs -> length src = length buf ->
  exists used c rest, cs = used ++ c :: rest /\
    (is_piece c = true -> read_exact_to_end cs buf src = (src, Some (Done (length buf)))) /\
    (forall e, c = Fails e -> read_exact_to_end cs buf src = (src, Some (Broken e))).
Proof.
  intros cs buf src F Lp Ls. destruct (read_exact_complete cs (length buf) src F) as (l & k & E & Pl & u & Eu); [lia|lia|].
  destruct l as [|c l]; [cbn in Pl; lia|]. exists u, c, l. split; [exact Eu|]. unfold read_exact_to_end. rewrite E.
  rewrite <- Ls, firstn_all, (skipn_all src), (skipn_all2 buf) by lia. rewrite app_nil_r. cbn [at_end].
  split.
  - intros C. destruct c as [j|]; [|discriminate]. now rewrite read1_end.
  - intros e ->. reflexivity.
Qed.
Print Assumptions C102_pieces_partial.

(** C102 fails: an interruption of the last read makes reading of a source of the right length fail, after all of it was read. *)
Theorem C102_interrupted_refuted : forall src buf e, src <> [] -> length buf = length src -> ie_kind e = Some KInterrupted ->
  read_exact_to_end [Piece (length src); Fails e] buf src = (src, Some (Broken e)) /\
  read_exact_to_end [Piece (length src); Piece 0] buf src = (src, Some (Done (length src))).
Proof.
  intros src buf e N L K.
  assert (G : forall c, read_exact_to_end [Piece (length src); c] buf src =
    (src, match read1 c 8 [] with RVal [] => Some (Done (length src)) | RVal _ => Some TooLong | RErr e => Some (Broken e) end)).
  { intros c. unfold read_exact_to_end. rewrite L. destruct src as [|a src]; [congruence|]. cbn [length read_exact].
    unfold read1 at 1. rewrite Nat.min_r by lia. rewrite firstn_all2 by (cbn [length]; lia).
    cbn [length]. rewrite Nat.sub_diag. rewrite (skipn_all2 (a :: src)) by (cbn [length]; lia). cbn [read_exact]. rewrite app_nil_r.
    rewrite (skipn_all2 buf) by (cbn [length] in *; lia). rewrite app_nil_r. reflexivity. }
  split; rewrite G; reflexivity.
Qed.
Print Assumptions C102_interrupted_refuted.

(** C102: as long as no read fails, a key is accepted exactly if it has the length asked for.  This is the function that the models of the API and
    of key files use. *)
Theorem C102_accepts : forall cs buf src, Forall (fun c => is_piece c = true) cs -> length buf < length cs ->
  exists buf' o, read_exact_to_end cs buf src = (buf', Some o) /\
    (length src = length buf -> o = Done (length buf) /\ buf' = src) /\ (length src < length buf -> o = ShortFile) /\ (length buf < length src -> o = TooLong) /\
    Builder.read_exact_til_end (N.of_nat (length buf)) (Some src) = match o with Done _ => Some buf' | _ => None end.
Proof.
  intros cs buf src F L.
  assert (Pc : pieces cs = length cs). { unfold pieces. clear L. induction F as [|c cs C F IH]; [reflexivity|]. cbn. rewrite C. cbn. now rewrite IH. }
  assert (Fh : Forall harmless cs). { eapply Forall_impl; [|exact F]. intros [k|e] C; [exact I|discriminate]. }
  assert (NF : forall e, ~ In (Fails e) cs). { intros e K. rewrite Forall_forall in F. apply F in K. discriminate. }
  destruct (read_exact_to_end cs buf src) as [buf' o] eqn:R. pose proof (C102_exact _ _ _ _ _ R) as (_ & Dn & Tl & Sh & Br).
  assert (So : exists o1, o = Some o1).
  { destruct o as [o|]; [now exists o|]. exfalso. unfold read_exact_to_end in R. destruct (read_exact cs (length buf) src) as [[[got s] l] o1] eqn:R1.
    assert (Eo : None = match o1 with Some (Done _) => at_end l s (length buf) | _ => o1 end) by congruence.
    destruct (Nat.le_gt_cases (length buf) (length src)) as [Lx|Lx].
    - destruct (read_exact_complete cs (length buf) src Fh ltac:(lia) Lx) as (l' & k & E & Pl & u & Eu). rewrite E in R1.
      assert (l' = l) by congruence. assert (o1 = Some (Done k)) by congruence. subst. destruct l as [|c l]; [cbn in Pl; lia|]. cbn [at_end] in Eo.
      destruct (read1 c 8 s) as [[|]|]; discriminate.
    - pose proof (read_exact_sound _ _ _ _ _ _ _ R1) as (Es & Lg & _ & O). destruct o1 as [[m| | |]|]; try discriminate.
      + rewrite Es, app_length in Lx. lia.
      + (* all calls are used up *)
        assert (Z : forall cs n src, Forall (fun c => is_piece c = true) cs -> length cs >= n -> forall g s, read_exact cs n src = (g, s, [], None) -> False).
        { clear. induction cs as [|c cs IH]; intros n src F L g s H; destruct n as [|n]; cbn [read_exact length] in *; try discriminate; [lia|].
          assert (Fc : is_piece c = true) by (now inversion F). assert (F' : Forall (fun c => is_piece c = true) cs) by (now inversion F). destruct c as [k|]; [|discriminate].
          destruct src as [|a src]; [rewrite read1_end in H; discriminate|]. destruct (read1_piece k (S n) (a :: src)) as (d & E & Ld & _); [lia|discriminate|].
          rewrite E in H. destruct d as [|b d]; [cbn in Ld; lia|]. remember (b :: d) as d0. clear Heqd0.
          destruct (read_exact cs (S n - length d0) (skipn (length d0) (a :: src))) as [[[g' s'] l'] o'] eqn:R. assert (l' = []) by congruence. assert (o' = None) by congruence. subst.
          eapply IH; [exact F'| |exact R]. lia. }
        destruct O as [_ ->]. eapply Z; [exact F| |exact R1]. lia. }
  destruct So as [o1 ->]. exists buf', o1. split; [reflexivity|].
  assert (C : (length src = length buf /\ o1 = Done (length buf) /\ buf' = src) \/ (length src < length buf /\ o1 = ShortFile) \/ (length buf < length src /\ o1 = TooLong)).
  { destruct o1 as [n| | |e].
    - left. destruct (Dn n eq_refl) as [-> ->]. split; [|auto]. clear -R. unfold read_exact_to_end in R.
      destruct (read_exact cs (length buf) src) as [[[got s] l] o1] eqn:R1. pose proof (read_exact_sound _ _ _ _ _ _ _ R1) as (Es & Lg & _ & _).
      assert (E : src = got ++ skipn (length got) buf) by congruence. rewrite E, app_length, skipn_length. lia.
    - right. right. destruct (Tl eq_refl). auto.
    - right. left. auto.
    - elim (NF e). auto. }
  unfold Builder.read_exact_til_end. destruct C as [(A & -> & ->)|[(A & ->)|(A & ->)]].
  - split; [auto|]. split; [lia|]. split; [lia|]. rewrite A. rewrite N.ltb_irrefl, N.eqb_refl. reflexivity.
  - split; [lia|]. split; [auto|]. split; [lia|]. replace (N.of_nat (length src) <? N.of_nat (length buf))%N with true by (symmetry; apply N.ltb_lt; lia). reflexivity.
  - split; [lia|]. split; [lia|]. split; [auto|]. replace (N.of_nat (length src) <? N.of_nat (length buf))%N with false by (symmetry; apply N.ltb_ge; lia).
    replace (N.of_nat (length src) =? N.of_nat (length buf))%N with false by (symmetry; apply N.eqb_neq; lia). reflexivity.
Qed.
Print Assumptions C102_accepts.

Lemma read_slice_sound : forall cs n src got s l o, read_slice cs n src = (got, s, l, o) ->
  src = got ++ s /\ length got <= n /\ (exists used, cs = used ++ l) /\
  match o with
  | None => True
  | Some (Done _) => length got = n \/ s = []
  | Some (Broken e) => In (Fails e) cs
  | _ => False
  end.
Proof.
  induction cs as [|c cs IH]; intros n src got s l o H; destruct n as [|n]; cbn [read_slice] in H.
  - inversion H; subst. repeat split; auto; now exists [].
  - inversion H; subst. cbn. split; [reflexivity|]. split; [lia|]. split; [now exists []|exact I].
  - inversion H; subst. repeat split; auto; now exists [].
  - destruct c as [k|e].
    + destruct src as [|a src].
      * rewrite read1_end in H. inversion H; subst. cbn. split; [reflexivity|]. split; [lia|]. split; [now exists [Piece k]|]. now right.
      * destruct (read1_piece k (S n) (a :: src)) as (d & E & Ld & Ed & Ls); [lia|discriminate|]. rewrite E in H. destruct d as [|b d]; [cbn in Ld; lia|].
        remember (b :: d) as d0. clear Heqd0.
        destruct (read_slice cs (S n - length d0) (skipn (length d0) (a :: src))) as [[[g s'] l'] o'] eqn:R. apply IH in R.
        inversion H; subst. destruct R as (Es & Lg & (u & ->) & O). rewrite app_length.
        split; [rewrite <- app_assoc, <- Es; rewrite <- (firstn_skipn (length d0) (a :: src)) at 1; now rewrite <- Ed|]. split; [lia|]. split; [now exists (Piece k :: u)|].
        destruct o as [[| | |]|]; auto; [destruct O; [left; lia|now right]|right; exact O].
    + cbn [read1] in H. inversion H; subst. cbn. split; [reflexivity|]. split; [lia|]. split; [now exists [Fails e]|]. now left.
Qed.

(** C102: a text of at most the size of the buffer is read completely, a longer one is refused. *)
Theorem C102_slice : forall cs buf src buf' o, read_slice_to_end cs buf src = (buf', o) ->
  (forall n, o = Some (Done n) -> n = length src /\ length src <= length buf /\ buf' = src ++ skipn n buf) /\
  (o = Some TooLong -> length buf < length src) /\ o <> Some ShortFile /\
  (forall e, o = Some (Broken e) -> In (Fails e) cs).
Proof.
  intros cs buf src buf' o H. unfold read_slice_to_end in H. destruct (read_slice cs (length buf) src) as [[[got s] l] o1] eqn:R.
  pose proof (read_slice_sound _ _ _ _ _ _ _ R) as (Es & Lg & (u & Eu) & O).
  assert (Eb : buf' = got ++ skipn (length got) buf) by congruence.
  assert (Eo : o = match o1 with Some (Done _) => at_end l s (length got) | _ => o1 end) by congruence. clear H R.
  destruct o1 as [[m| | |e]|]; try contradiction; subst o.
  - unfold at_end. destruct l as [|c l]; [repeat split; intros; discriminate|]. destruct c as [k|e].
    + destruct s as [|a s].
      * rewrite read1_end. rewrite app_nil_r in Es. subst src. repeat split; intros; try discriminate; try congruence; lia.
      * destruct (read1_piece k 8 (a :: s)) as (d & -> & Ld & _); [lia|discriminate|]. destruct d; [cbn in Ld; lia|]. repeat split; intros; try discriminate.
        destruct O as [O|O]; [|discriminate]. rewrite Es, app_length. cbn. lia.
    + cbn [read1]. repeat split; intros; try discriminate. assert (e0 = e) by congruence. subst. apply in_or_app. right. now left.
  - repeat split; intros; try discriminate. congruence.
  - repeat split; intros; discriminate.
Qed.
Print Assumptions C102_slice.

(** C102 fails for Base64 texts: [read_slice_to_end] does not repeat what was interrupted, wherever it happens: any interruption up to
    the last read makes it fail. *)
Theorem C102_slice_interrupted_refuted : forall ps e rest buf src, Forall (fun c => is_piece c = true) ps -> ie_kind e = Some KInterrupted ->
  snd (read_slice_to_end ps buf src) = None ->
  exists buf', read_slice_to_end (ps ++ Fails e :: rest) buf src = (buf', Some (Broken e)).
Proof.
  intros ps e rest buf src F K H. unfold read_slice_to_end in *.
  assert (G : forall ps n src, Forall (fun c => is_piece c = true) ps -> forall got s l o, read_slice ps n src = (got, s, l, o) ->
    match o with
    | None => exists l', read_slice (ps ++ Fails e :: rest) n src = (got, s, l', Some (Broken e))
    | Some x => read_slice (ps ++ Fails e :: rest) n src = (got, s, l ++ Fails e :: rest, Some x)
    end).
  { clear. induction ps as [|c ps IH]; intros n src F got s l o R; destruct n as [|n]; cbn [read_slice app] in *.
    - inversion R; subst. reflexivity.
    - inversion R; subst. cbn. eexists. reflexivity.
    - inversion R; subst. reflexivity.
    - assert (Fc : is_piece c = true) by (now inversion F). assert (F' : Forall (fun c => is_piece c = true) ps) by (now inversion F). destruct c as [k|]; [|discriminate].
      destruct src as [|a src]; [rewrite read1_end in *; inversion R; subst; reflexivity|].
      destruct (read1_piece k (S n) (a :: src)) as (d & E & Ld & _); [lia|discriminate|]. rewrite E in *. destruct d as [|b d]; [cbn in Ld; lia|].
      remember (b :: d) as d0. clear Heqd0.
      destruct (read_slice ps (S n - length d0) (skipn (length d0) (a :: src))) as [[[g' s'] l'] o'] eqn:R'. inversion R; subst. specialize (IH _ _ F' _ _ _ _ R').
      destruct o as [x|].
      + now rewrite IH.
      + destruct IH as [l2 ->]. eexists. reflexivity. }
  destruct (read_slice ps (length buf) src) as [[[got s] l] o] eqn:R. specialize (G _ _ _ F _ _ _ _ R).
  assert (N : match o with Some (Done _) => at_end l s (length got) | _ => o end = None) by exact H.
  destruct o as [x|].
  - rewrite G. destruct x; try discriminate. destruct l as [|c l]; [|cbn in N; destruct (read1 c 8 s) as [[|]|]; discriminate]. cbn. eexists. reflexivity.
  - destruct G as [l' ->]. eexists. reflexivity.
Qed.
Print Assumptions C102_slice_interrupted_refuted.

(** * C102: waiting for events *)

Definition poll_interrupted {E} (c : pcall E) : Prop := interrupted (pc_result c).
Definition total {E} (l : list (pcall E)) : Z := fold_right (fun c t => (pc_time c + t)%Z) 0%Z l.

(** C102: interruptions are not seen, and the events of the first call that is not interrupted are put behind those that wait, each once
    and in order.  If there is no interruption, this takes no longer than the time limit. *)
Theorem C102_events_partial : forall E (ints : list (pcall E)) c rest queue timeout, Forall poll_interrupted ints -> ~ poll_interrupted c ->
  let '(t, q, r) := perform_mio_poll (ints ++ c :: rest) queue in
  (forall evs, pc_result c = RVal evs -> q = queue ++ evs /\ r = Some (RVal tt)) /\
  (forall e, pc_result c = RErr e -> q = queue /\ r = Some (RErr e)) /\
  t = (total ints + pc_time c)%Z /\ (ints = [] -> punctual timeout c -> (0 <= t <= timeout)%Z).
Proof.
  intros E ints c rest queue timeout F N.
  assert (G : perform_mio_poll (ints ++ c :: rest) queue =
    ((total ints + pc_time c)%Z, match pc_result c with RVal evs => queue ++ evs | RErr _ => queue end,
     Some (match pc_result c with RVal _ => RVal tt | RErr e => RErr e end))).
  { induction F as [|x l X F IH]; cbn [app total fold_right perform_mio_poll].
    - unfold poll_interrupted, interrupted in N. destruct (pc_result c) as [v|e]; cbn [hint]; [reflexivity|].
      destruct (ie_kind e) as [[| | |]|] eqn:K; try reflexivity. elim N. now exists e.
    - destruct X as (e & X & K). rewrite X. cbn [hint]. rewrite K, IH. fold (total l). now rewrite Z.add_assoc. }
  rewrite G. split; [intros evs ->; auto|]. split; [intros e ->; auto|]. split; [reflexivity|]. intros -> P. exact P.
Qed.
Print Assumptions C102_events_partial.

(** C102 fails: every interruption starts the time limit anew.  Interruptions that come a little faster than the time limit keep the server
    from noticing that it has passed, for as long as they come. *)
Theorem C102_overslept_refuted : forall E (timeout bound : Z), (0 < timeout)%Z -> exists (calls : list (pcall E)),
  Forall (punctual timeout) calls /\ exists n, snd (perform_mio_poll calls []) = Some (RVal tt) /\ length calls = S n /\
    Forall poll_interrupted (firstn n calls) /\ (bound < fst (fst (perform_mio_poll calls [])))%Z.
Proof.
  intros E timeout bound T. pose (i := {| pc_time := timeout; pc_result := @RErr (list E) {| ie_kind := Some KInterrupted; ie_no := 0 |} |}).
  pose (d := {| pc_time := timeout; pc_result := RVal (@nil E) |}). pose (n := Z.to_nat (Z.max 0 bound)).
  assert (Ii : poll_interrupted i) by (eexists; split; reflexivity).
  assert (Fi : Forall poll_interrupted (repeat i n)) by (apply Forall_forall; intros x X; apply repeat_spec in X; now subst).
  exists (repeat i n ++ [d]). split.
  { apply Forall_app. split; [apply Forall_forall; intros x X; apply repeat_spec in X; subst|constructor; [|constructor]]; unfold punctual; cbn; lia. }
  exists n. assert (Nd : ~ poll_interrupted d) by (intros (e & X & _); discriminate).
  pose proof (C102_events_partial E (repeat i n) d [] [] timeout Fi Nd) as G. destruct (perform_mio_poll (repeat i n ++ [d]) []) as [[t q] r].
  destruct G as (G1 & _ & G3 & _). destruct (G1 _ eq_refl) as [_ ->]. split; [reflexivity|]. split; [rewrite app_length, repeat_length; cbn; lia|].
  split; [rewrite firstn_app, repeat_length, Nat.sub_diag, firstn_O, app_nil_r, firstn_all2 by (rewrite repeat_length; lia); exact Fi|].
  cbn [fst]. rewrite G3. cbn [pc_time d].
  assert (Ts : total (repeat i n) = (Z.of_nat n * timeout)%Z) by (clear; induction n as [|n IH]; [reflexivity|]; cbn [repeat total fold_right]; fold (total (repeat i n)); rewrite IH; unfold i; cbn [pc_time]; lia).
  rewrite Ts. assert (Z.of_nat n = Z.max 0 bound) by (unfold n; lia). nia.
Qed.
Print Assumptions C102_overslept_refuted.

(** Non-vacuity: a read in two pieces with interruptions, a nonblocking call that is interrupted and then would block, and a wait with one
    interruption *)
Example C102_demo :
  let i := {| ie_kind := Some KInterrupted; ie_no := 4 |} in
  read_exact_to_end [Fails i; Piece 1; Fails i; Piece 0; Piece 7] [x00; x00; x00] [x01; x02; x03] = ([x01; x02; x03], Some (Done 3)) /\
  read_exact_to_end [Piece 1; Piece 0; Piece 7] [x00; x00; x00] [x01; x02; x03; x04] = ([x01; x02; x03], Some TooLong) /\
  read_slice_to_end [Piece 1; Piece 0; Piece 7; Piece 1] [x00; x00; x00; x00] [x01; x02; x03] = ([x01; x02; x03; x00], Some (Done 3)) /\
  nonblocking_handle_io_errors [RErr i; RErr {| ie_kind := Some KWouldBlock; ie_no := 1 |}; RVal 5] = (Some (RVal None), [RVal 5]) /\
  perform_mio_poll [{| pc_time := 3; pc_result := RErr i |}; {| pc_time := 2; pc_result := RVal [7] |}] [1; 2] = (5%Z, [1; 2; 7], Some (RVal tt)).
Proof. vm_compute. repeat split; reflexivity. Qed.
