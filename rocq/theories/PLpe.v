(** C18, C19, C52, C53: length-prefixed messages. *)
From Verif Require Import Base Lpe.

(** * Specification *)

(** A message on the wire: its length as eight little-endian bytes, then the message. *)
Definition frame (m : bytes) : bytes := le_enc 8 (N.of_nat (length m)) ++ m.

(** What a receiver with room for [n] bytes knows after the bytes [c]. *)
Inductive status := Need | Big | Done (m : bytes).
Definition announced (c : bytes) : N := le_dec (firstn 8 c).
Definition status_of (n : nat) (c : bytes) : status :=
  if length c <? 8 then Need
  else if (N.of_nat n <? announced c)%N then Big
  else if (N.of_nat (length c - 8) =? announced c)%N then Done (skipn 8 c)
  else Need.
(** How many bytes the receiver may ask for next: up to the end of the header, then up to the end
    of the message. *)
Definition missing (c : bytes) : nat :=
  if length c <? 8 then 8 - length c else N.to_nat (announced c) - (length c - 8).

(** * Decoder invariant *)

Record dok (n : nat) (d : dec) (c : bytes) : Prop := {
  dk_h : length (d_header d) = 8;
  dk_b : length (d_buf d) = n;
  dk_o : d_off d = length c;
  dk_hc : firstn (Nat.min (length c) 8) (d_header d) = firstn 8 c;
  dk_bc : firstn (length c - 8) (d_buf d) = skipn 8 c;
  dk_sz : 8 <= length c -> (N.of_nat (length c - 8) <= announced c)%N;
  dk_big : 8 < length c -> (announced c <= N.of_nat n)%N
}.

Lemma dok_new buf : dok (length buf) (dec_new buf) [].
Proof. constructor; cbn; auto; lia. Qed.
Lemma dok_clear n d c : dok n d c -> dok n (dec_clear d) [].
Proof. intros [? ? ? ? ? ? ?]. constructor; cbn [dec_clear d_header d_buf d_off length]; rewrite ?zeros_length; auto; cbn; lia. Qed.

Lemma header_ok n d c : dok n d c ->
  get_header d = if length c <? 8 then None else Some (announced c).
Proof.
  intros K. unfold get_header, d_hoff, HEADER_SIZE. rewrite (dk_o _ _ _ K).
  destruct (Nat.ltb_spec (length c) 8) as [L|L].
  - destruct (Nat.eqb_spec (Nat.min (length c) 8) 8); [lia|reflexivity].
  - destruct (Nat.eqb_spec (Nat.min (length c) 8) 8) as [E|]; [|lia].
    pose proof (dk_hc _ _ _ K) as H. rewrite E in H. rewrite firstn_all2 in H by (rewrite (dk_h _ _ _ K); lia).
    unfold announced. now rewrite H.
Qed.

Lemma take_to_ok {E} n l : n <= length l -> @take_to E n l = Ok (firstn n l).
Proof. intros H. unfold take_to. now rewrite (proj2 (Nat.leb_le _ _)) by exact H. Qed.
Lemma take_from_ok {E} n l : n <= length l -> @take_from E n l = Ok (skipn n l).
Proof. intros H. unfold take_from. now rewrite (proj2 (Nat.leb_le _ _)) by exact H. Qed.

Lemma moff_le n d c : dok n d c -> length c - 8 <= n.
Proof.
  intros K. destruct (le_lt_dec (length c) 8); [lia|].
  pose proof (dk_sz _ _ _ K). pose proof (dk_big _ _ _ K). lia.
Qed.

Lemma avail_ok {E} n d c : dok n d c -> @take_to E (d_moff d) (d_buf d) = Ok (skipn 8 c).
Proof.
  intros K. unfold d_moff, HEADER_SIZE. rewrite (dk_o _ _ _ K).
  rewrite take_to_ok by (rewrite (dk_b _ _ _ K); eapply moff_le; eauto).
  now rewrite (dk_bc _ _ _ K).
Qed.

Lemma fragment_ok n d c : dok n d c ->
  message_fragment d =
  if length c <? 8 then Ok None
  else if (N.of_nat n <? announced c)%N then Err TooLarge
  else Ok (Some (firstn (N.to_nat (announced c)) (d_buf d))).
Proof.
  intros K. unfold message_fragment, ensure_sufficient. rewrite (header_ok _ _ _ K).
  destruct (length c <? 8); [reflexivity|]. rewrite (dk_b _ _ _ K), N.ltb_antisym.
  destruct (N.leb_spec (announced c) (N.of_nat n)) as [L|L]; [|reflexivity].
  cbn [rbind negb]. rewrite take_to_ok by (rewrite (dk_b _ _ _ K); lia). reflexivity.
Qed.

Lemma message_ok n d c : dok n d c ->
  dec_message d = match status_of n c with
                  | Need => Ok None | Big => Err TooLarge | Done m => Ok (Some m) end.
Proof.
  intros K. unfold dec_message, message_fragment_avail. rewrite (avail_ok _ _ _ K). cbn [rbind].
  rewrite (fragment_ok _ _ _ K), (header_ok _ _ _ K). unfold status_of.
  destruct (Nat.ltb_spec (length c) 8) as [L|L]; [reflexivity|].
  destruct (N.ltb_spec (N.of_nat n) (announced c)) as [B|B]; [reflexivity|].
  cbn [rbind]. pose proof (dk_sz _ _ _ K L) as S.
  rewrite take_to_ok.
  2:{ rewrite skipn_length, firstn_length, (dk_b _ _ _ K). lia. }
  cbn [rbind]. rewrite skipn_length, firstn_firstn, Nat.min_l by lia.
  rewrite (dk_bc _ _ _ K), skipn_length.
  destruct (N.of_nat (length c - 8) =? announced c)%N; reflexivity.
Qed.

Lemma has_message_ok n d c : dok n d c ->
  has_message d = match status_of n c with
                  | Need => Ok false | Big => Err TooLarge | Done _ => Ok true end.
Proof.
  intros K. unfold has_message, ensure_sufficient, status_of. rewrite (header_ok _ _ _ K).
  destruct (length c <? 8); [reflexivity|]. rewrite (dk_b _ _ _ K), N.ltb_antisym.
  destruct (N.leb_spec (announced c) (N.of_nat n)); [|reflexivity].
  cbn [rbind negb]. rewrite (avail_ok _ _ _ K). cbn [rbind]. rewrite skipn_length.
  now destruct (N.of_nat (length c - 8) =? announced c)%N.
Qed.

Definition slot_at (c : bytes) : slot :=
  if length c <? 8 then InHeader (missing c) else InMessage (missing c).

Lemma slot_ok n d c : dok n d c ->
  next_slot d = match status_of n c with
                | Need => Ok (Some (slot_at c)) | Big => Err TooLarge | Done _ => Ok None end.
Proof.
  intros K. unfold next_slot, d_hoff, HEADER_SIZE. rewrite (dk_o _ _ _ K).
  rewrite take_from_ok by (rewrite (dk_h _ _ _ K); lia). cbn [rbind].
  assert (length (skipn (Nat.min (length c) 8) (d_header d)) = 8 - Nat.min (length c) 8) as Ls
    by (rewrite skipn_length, (dk_h _ _ _ K); lia).
  unfold status_of, slot_at, missing.
  destruct (Nat.ltb_spec (length c) 8) as [L|L].
  - destruct (skipn _ (d_header d)); cbn [length] in *; [lia|].
    f_equal. f_equal. f_equal. lia.
  - destruct (skipn _ (d_header d)); cbn [length] in *; [|lia].
    unfold message_fragment_left. rewrite (avail_ok _ _ _ K). cbn [rbind].
    rewrite (fragment_ok _ _ _ K). rewrite (proj2 (Nat.ltb_ge _ _)) by lia.
    destruct (N.ltb_spec (N.of_nat n) (announced c)) as [B|B]; [reflexivity|].
    cbn [rbind]. pose proof (dk_sz _ _ _ K L) as S.
    rewrite take_from_ok.
    2:{ rewrite skipn_length, firstn_length, (dk_b _ _ _ K). lia. }
    cbn [rbind].
    assert (length (skipn (length (skipn 8 c)) (firstn (N.to_nat (announced c)) (d_buf d)))
            = N.to_nat (announced c) - (length c - 8)) as Lf
      by (rewrite !skipn_length, firstn_length, (dk_b _ _ _ K); lia).
    destruct (N.eqb_spec (N.of_nat (length c - 8)) (announced c)) as [E|E];
      destruct (skipn (length (skipn 8 c)) _); cbn [length] in *; try lia; try reflexivity.
    now rewrite <- Lf.
Qed.

Lemma need_missing n d c : dok n d c -> status_of n c = Need -> 0 < missing c.
Proof.
  intros K. unfold status_of, missing. destruct (Nat.ltb_spec (length c) 8); [lia|].
  destruct (N.ltb_spec (N.of_nat n) (announced c)); [discriminate|].
  destruct (N.eqb_spec (N.of_nat (length c - 8)) (announced c)); [discriminate|].
  pose proof (dk_sz _ _ _ K). lia.
Qed.

Lemma splice_firstn off data l : off <= length l ->
  firstn (off + length data) (splice off data l) = firstn off l ++ data.
Proof.
  intros H. unfold splice. rewrite app_assoc, firstn_app.
  rewrite firstn_all2 by (rewrite app_length, firstn_length; lia).
  rewrite app_length, firstn_length, Nat.min_l by lia.
  rewrite Nat.sub_diag. cbn. apply app_nil_r.
Qed.
Lemma splice_length off data l : off + length data <= length l ->
  length (splice off data l) = length l.
Proof. intros H. unfold splice. rewrite !app_length, firstn_length, skipn_length. lia. Qed.

Lemma announced_app c data : 8 <= length c -> announced (c ++ data) = announced c.
Proof.
  intros H. unfold announced. rewrite firstn_app.
  replace (8 - length c) with 0 by lia. cbn [firstn]. now rewrite app_nil_r.
Qed.

Lemma filled n d c data : dok n d c -> status_of n c = Need -> length data <= missing c ->
  exists d', dec_advance (length data) (fill d (slot_at c) data) = (d', Ok tt) /\ dok n d' (c ++ data).
Proof.
  intros K St Ld. pose proof (moff_le _ _ _ K) as Mo.
  unfold slot_at, fill, d_hoff, d_moff, HEADER_SIZE. rewrite (dk_o _ _ _ K).
  unfold missing in Ld.
  destruct (Nat.ltb_spec (length c) 8) as [L|L].
  - rewrite Nat.min_l by lia. eexists. split.
    + unfold dec_advance. cbn [d_off d_buf]. rewrite ?(dk_o _ _ _ K).
      unfold HEADER_SIZE. replace (length c + length data - 8) with 0 by lia. cbn [Nat.leb negb].
      unfold get_header, d_hoff, HEADER_SIZE. cbn [d_off]. rewrite ?(dk_o _ _ _ K).
      destruct (Nat.eqb_spec (Nat.min (length c) 8) 8); [lia|]. reflexivity.
    + pose proof (dk_hc _ _ _ K) as Hc. rewrite Nat.min_l in Hc by lia.
      rewrite (firstn_all2 c) in Hc by lia.
      constructor; cbn [d_header d_buf d_off]; rewrite ?app_length.
      * rewrite splice_length; rewrite (dk_h _ _ _ K); lia.
      * apply (dk_b _ _ _ K).
      * lia.
      * rewrite Nat.min_l by lia. rewrite splice_firstn by (rewrite (dk_h _ _ _ K); lia).
        rewrite Hc. symmetry. apply firstn_all2. rewrite app_length. lia.
      * replace (length c + length data - 8) with 0 by lia. symmetry. apply skipn_all2.
        rewrite app_length. lia.
      * intros. replace (length c + length data - 8) with 0 by lia. lia.
      * intros. lia.
  - pose proof (dk_sz _ _ _ K L) as S.
    assert (announced c <= N.of_nat n)%N as B.
    { unfold status_of in St. rewrite (proj2 (Nat.ltb_ge _ _)) in St by lia.
      destruct (N.ltb_spec (N.of_nat n) (announced c)); [discriminate|lia]. }
    eexists. split.
    + unfold dec_advance. cbn [d_off d_buf]. rewrite ?(dk_o _ _ _ K).
      unfold HEADER_SIZE. rewrite splice_length by (rewrite (dk_b _ _ _ K); lia).
      rewrite (dk_b _ _ _ K). rewrite (proj2 (Nat.leb_le _ _)) by lia. cbn [negb].
      unfold get_header, d_hoff, HEADER_SIZE. cbn [d_off d_header]. rewrite ?(dk_o _ _ _ K).
      rewrite Nat.min_r by lia. cbn [Nat.eqb].
      pose proof (dk_hc _ _ _ K) as H. rewrite Nat.min_r in H by lia.
      rewrite firstn_all2 in H by (rewrite (dk_h _ _ _ K); lia).
      assert (le_dec (d_header d) = announced c) as -> by (unfold announced; now rewrite H).
      rewrite (proj2 (N.leb_le _ _)) by lia. reflexivity.
    + constructor; cbn [d_header d_buf d_off]; rewrite ?app_length.
      * apply (dk_h _ _ _ K).
      * rewrite splice_length by (rewrite (dk_b _ _ _ K); lia). apply (dk_b _ _ _ K).
      * lia.
      * rewrite Nat.min_r by lia. pose proof (dk_hc _ _ _ K) as H. rewrite Nat.min_r in H by lia.
        rewrite H, firstn_app. replace (8 - length c) with 0 by lia. cbn [firstn]. now rewrite app_nil_r.
      * replace (length c + length data - 8) with (length c - 8 + length data) by lia.
        rewrite splice_firstn by (rewrite (dk_b _ _ _ K); lia). rewrite (dk_bc _ _ _ K).
        rewrite skipn_app. replace (8 - length c) with 0 by lia. reflexivity.
      * intros. rewrite announced_app by lia. lia.
      * intros. rewrite announced_app by lia. lia.
Qed.

(** What one call of [read_from_stdio] does, in terms of the bytes read so far. *)
Lemma read_ok n d c e src : dok n d c ->
  match status_of n c, e with
  | Big, _ => read_from_stdio d e src = (d, src, Err TooLarge)
  | Done m, _ => read_from_stdio d e src = (d, src, Ok (0, Some m))
  | Need, RFail k => read_from_stdio d e src = (d, src, Err (RIo k))
  | Need, Give k =>
      let data := firstn (Nat.min k (missing c)) src in
      exists d', dok n d' (c ++ data) /\
        read_from_stdio d e src =
          (d', skipn (length data) src,
           Ok (length data, match status_of n (c ++ data) with Done m => Some m | _ => None end))
  end.
Proof.
  intros K. unfold read_from_stdio. rewrite (slot_ok _ _ _ K), (message_ok _ _ _ K).
  destruct (status_of n c) eqn:St; try reflexivity.
  destruct e as [k|k]; [|reflexivity]. cbn zeta.
  replace (slot_len (slot_at c)) with (missing c) by (unfold slot_at; now destruct (length c <? 8)).
  destruct (filled n d c (firstn (Nat.min k (missing c)) src) K St) as (d' & A & K').
  { rewrite firstn_length. lia. }
  exists d'. split; [exact K'|]. rewrite A, (message_ok _ _ _ K').
  now destruct (status_of n (c ++ _)).
Qed.

(** * C19 *)

(** What a user does with a decoder: reading (the reader may deliver any number of bytes, or fail) and
    clearing. *)
Inductive dact := ARead (e : rd_ev) | AClear.
(** The bytes read since the last [clear], as seen by the reader. *)
Fixpoint drive (as_ : list dact) (d : dec) (src c : bytes) : dec * bytes * bytes :=
  match as_ with
  | [] => (d, src, c)
  | AClear :: l => drive l (dec_clear d) src []
  | ARead e :: l =>
      let '(d', src', _) := read_from_stdio d e src in
      drive l d' src' (c ++ firstn (length src - length src') src)
  end.

Lemma firstn_len {A} n (l : list A) : firstn (length (firstn n l)) l = firstn n l.
Proof.
  rewrite firstn_length. destruct (le_lt_dec n (length l)).
  - now rewrite Nat.min_l by lia.
  - rewrite Nat.min_r by lia. rewrite !firstn_all2 by lia. reflexivity.
Qed.
Lemma read_dok n d c e src d' src' r : dok n d c -> read_from_stdio d e src = (d', src', r) ->
  dok n d' (c ++ firstn (length src - length src') src) /\
  src = firstn (length src - length src') src ++ src' /\ r <> Panic.
Proof.
  intros K E. pose proof (read_ok n d c e src K) as R.
  assert (forall x, (d, src, x) = (d', src', r) -> x <> Panic ->
    dok n d' (c ++ firstn (length src - length src') src) /\
    src = firstn (length src - length src') src ++ src' /\ r <> Panic) as Same.
  { intros x H N. injection H as <- <- <-. rewrite Nat.sub_diag. cbn. rewrite app_nil_r. auto. }
  rewrite E in R.
  destruct (status_of n c).
  - destruct e as [k|k].
    + cbn zeta in R. destruct R as (d2 & K2 & R). injection R as -> -> ->.
      set (data := firstn (Nat.min k (missing c)) src) in *.
      assert (length data <= length src) by (unfold data; rewrite firstn_length; lia).
      rewrite skipn_length. replace (length src - (length src - length data)) with (length data) by lia.
      assert (firstn (length data) src = data) as Ed by apply firstn_len.
      rewrite Ed. split; [exact K2|]. split; [|discriminate].
      rewrite <- Ed at 1. symmetry. apply firstn_skipn.
    + eapply Same; [symmetry; exact R|discriminate].
  - destruct e; (eapply Same; [symmetry; exact R|discriminate]).
  - destruct e; (eapply Same; [symmetry; exact R|discriminate]).
Qed.

Lemma drive_dok n as_ : forall d src c d' left c', dok n d c -> drive as_ d src c = (d', left, c') ->
  dok n d' c' /\ exists before, c ++ src = before ++ c' ++ left.
Proof.
  induction as_ as [|[e|] as_ IH]; intros d src c d' left c' K E; cbn [drive] in E.
  - injection E as <- <- <-. split; [exact K|]. exists []. reflexivity.
  - destruct (read_from_stdio d e src) as [[d2 src2] r] eqn:R.
    destruct (read_dok n d c e src d2 src2 r K R) as (K2 & A & _).
    destruct (IH _ _ _ _ _ _ K2 E) as (K' & b & Eb). split; [exact K'|]. exists b.
    rewrite <- Eb, <- app_assoc. now rewrite <- A.
  - destruct (IH _ _ _ _ _ _ (dok_clear _ _ _ K) E) as (K' & b & Eb). split; [exact K'|].
    exists (c ++ b). cbn [app] in Eb. rewrite Eb. now rewrite <- !app_assoc.
Qed.

(** Whatever bytes arrive, in whatever portions and with whatever errors and clears in between:
    with [c] the bytes read since the last clear, the decoder has kept its buffer size, has read at most the
    first message of [c], and the outcome of the next call is fully determined by [c]. *)
Theorem C19_decoder : forall buf stream acts d left c e,
  drive acts (dec_new buf) stream [] = (d, left, c) ->
  (exists before, stream = before ++ c ++ left) /\
  length (d_buf d) = length buf /\
  (8 <= length c -> (N.of_nat (length c) <= 8 + announced c)%N) /\
  (8 < length c -> (announced c <= N.of_nat (length buf))%N) /\
  (** [message] *)
  dec_message d = match status_of (length buf) c with
                  | Need => Ok None | Big => Err TooLarge | Done m => Ok (Some m) end /\
  has_message d = match status_of (length buf) c with
                  | Need => Ok false | Big => Err TooLarge | Done _ => Ok true end /\
  (** the next [read_from_stdio] *)
  match status_of (length buf) c, e with
  | Big, _ => read_from_stdio d e left = (d, left, Err TooLarge)
  | Done m, _ => read_from_stdio d e left = (d, left, Ok (0, Some m))
  | Need, RFail k => read_from_stdio d e left = (d, left, Err (RIo k))
  | Need, Give k =>
      let data := firstn (Nat.min k (missing c)) left in
      exists d', read_from_stdio d e left =
          (d', skipn (length data) left,
           Ok (length data, match status_of (length buf) (c ++ data) with Done m => Some m | _ => None end))
  end.
Proof.
  intros buf stream acts d left c e E.
  destruct (drive_dok (length buf) acts _ _ _ _ _ _ (dok_new buf) E) as (K & b & Eb).
  split; [exists b; exact Eb|]. split; [apply (dk_b _ _ _ K)|].
  split; [intros L; pose proof (dk_sz _ _ _ K L); lia|]. split; [apply (dk_big _ _ _ K)|].
  split; [apply message_ok, K|]. split; [apply has_message_ok, K|].
  pose proof (read_ok _ _ _ e left K) as R.
  destruct (status_of (length buf) c); try exact R. destruct e; try exact R.
  cbn zeta in *. destruct R as (d' & _ & R). exists d'. exact R.
Qed.
Print Assumptions C19_decoder.

(** A message that fits is delivered as it was sent; one that does not fit is rejected as soon as its
    header is complete, before any of its bytes is read. *)
Theorem C19_status : forall n m, (N.of_nat (length m) < 2 ^ 64)%N ->
  (length m <= n -> status_of n (frame m) = Done m /\
     forall i, i < length (frame m) -> status_of n (firstn i (frame m)) = Need) /\
  (n < length m -> status_of n (firstn 8 (frame m)) = Big).
Proof.
  intros n m B.
  assert (forall i, 8 <= i -> announced (firstn i (frame m)) = N.of_nat (length m)) as An.
  { intros i Hi. unfold announced, frame. rewrite firstn_firstn, Nat.min_l by lia.
    rewrite firstn_app, (firstn_all2 (le_enc 8 _)), le_enc_length by (rewrite le_enc_length; lia).
    rewrite Nat.sub_diag, firstn_O, app_nil_r. rewrite le_dec_enc, N.mod_small; auto. }
  assert (length (frame m) = 8 + length m) as Lf by (unfold frame; rewrite app_length, le_enc_length; lia).
  split.
  - intros Hm. split.
    + pose proof (An (length (frame m))) as A. rewrite firstn_all in A. specialize (A ltac:(lia)).
      unfold status_of. rewrite A, Lf. rewrite (proj2 (Nat.ltb_ge _ _)) by lia.
      rewrite (proj2 (N.ltb_ge _ _)) by lia. rewrite (proj2 (N.eqb_eq _ _)) by lia.
      f_equal.
    + intros i Hi. unfold status_of. rewrite firstn_length, Nat.min_l by lia.
      destruct (Nat.ltb_spec i 8); [reflexivity|]. rewrite An by lia.
      rewrite (proj2 (N.ltb_ge _ _)) by lia. rewrite (proj2 (N.eqb_neq _ _)) by lia. reflexivity.
  - intros Hm. unfold status_of. rewrite firstn_length, Nat.min_l by lia.
    cbn [Nat.ltb Nat.leb]. rewrite An by lia. rewrite (proj2 (N.ltb_lt _ _)) by lia. reflexivity.
Qed.
Print Assumptions C19_status.

(** Non-vacuity: a message in two portions with an interruption, and a hostile header. *)
Example C19_nonvacuous :
  drive [ARead (Give 3); ARead (RFail KInterrupted); ARead (Give 100); ARead (Give 1); ARead (Give 100)]
        (dec_new (zeros 4)) (frame [x01; x02; x03] ++ [xff]) []
  = ({| d_header := le_enc 8 3; d_buf := [x01; x02; x03; x00]; d_off := 11 |}, [xff], frame [x01; x02; x03])
  /\ status_of 4 (frame [x01; x02; x03]) = Done [x01; x02; x03]
  /\ status_of 4 (repeat xff 8) = Big.
Proof. repeat split. Qed.

(** * Encoder invariant *)

Definition wire_of (e : enc) : bytes := e_header e ++ firstn (N.to_nat (message_len e)) (e_buf e).
(** [eok e pend]: the encoder is in a sane state and [pend] is still to be written. *)
Record eok (e : enc) (pend : bytes) : Prop := {
  ek_h : length (e_header e) = 8;
  ek_l : (message_len e <= N.of_nat (length (e_buf e)))%N;
  ek_p : e_pos e <= 8 + N.to_nat (message_len e);
  ek_w : pend = skipn (e_pos e) (wire_of e)
}.

Lemma wire_length e pend : eok e pend -> length (wire_of e) = 8 + N.to_nat (message_len e).
Proof.
  intros K. unfold wire_of. rewrite app_length, firstn_length, (ek_h _ _ K).
  pose proof (ek_l _ _ K). lia.
Qed.
Lemma pend_length e pend : eok e pend -> length pend = 8 + N.to_nat (message_len e) - e_pos e.
Proof. intros K. rewrite (ek_w _ _ K), skipn_length. now rewrite (wire_length _ _ K). Qed.

Lemma next_slice_ok e pend : eok e pend ->
  exists s rest, next_slice e = Ok s /\ pend = s ++ rest /\ (pend <> [] -> s <> []).
Proof.
  intros K. unfold next_slice, header_left, e_hoff, HEADER_SIZE.
  rewrite take_from_ok by (rewrite (ek_h _ _ K); lia). cbn [rbind].
  pose proof (ek_p _ _ K) as Hp. pose proof (ek_l _ _ K) as Hl.
  pose proof (ek_w _ _ K) as W. unfold wire_of in W. rewrite skipn_app in W.
  destruct (le_lt_dec 8 (e_pos e)) as [L|L].
  - rewrite Nat.min_r by lia. rewrite skipn_all2 by (rewrite (ek_h _ _ K); lia).
    unfold message_left, enc_message. rewrite (proj2 (N.leb_le _ _)) by lia. cbn [rbind].
    unfold e_moff, HEADER_SIZE. rewrite take_from_ok by (rewrite firstn_length; lia).
    rewrite (skipn_all2 (e_header e)) in W by (rewrite (ek_h _ _ K); lia). cbn [app] in W. rewrite (ek_h _ _ K) in W.
    eexists _, []. split; [reflexivity|]. rewrite app_nil_r. split; [exact W|]. now rewrite W.
  - rewrite Nat.min_l by lia.
    destruct (skipn (e_pos e) (e_header e)) eqn:Es.
    + apply (f_equal (@length byte)) in Es. rewrite skipn_length, (ek_h _ _ K) in Es. cbn [length] in Es. lia.
    + eexists _, _. split; [reflexivity|]. split; [exact W|]. intros _. discriminate.
Qed.

Lemma exhausted_ok e pend : eok e pend ->
  exhausted e = Ok (match pend with [] => true | _ => false end).
Proof.
  intros K. destruct (next_slice_ok e pend K) as (s & r & E & P & N).
  unfold exhausted. rewrite E. cbn [rbind]. f_equal. destruct s, pend; auto.
  - destruct N; auto. discriminate.
  - discriminate P.
Qed.

Lemma advance_ok e pend k : eok e pend -> k <= length pend ->
  exists e', enc_advance k e = (e', Ok tt) /\ eok e' (skipn k pend) /\ e_buf e' = e_buf e.
Proof.
  intros K Hk. rewrite (pend_length _ _ K) in Hk.
  pose proof (ek_l _ _ K) as Hl. pose proof (ek_p _ _ K) as Hp.
  unfold enc_advance, set_writing_position, pos_in_buf, pos_in_msg, e_moff, HEADER_SIZE, message_len in *.
  cbn [e_pos e_buf e_header].
  rewrite (proj2 (Nat.leb_le _ _)) by lia. rewrite (proj2 (N.leb_le _ _)) by lia. cbn [negb].
  eexists. split; [reflexivity|]. split; [|reflexivity].
  constructor; unfold message_len, wire_of, message_len in *; cbn [e_pos e_buf e_header].
  - apply (ek_h _ _ K).
  - exact Hl.
  - lia.
  - rewrite (ek_w _ _ K). unfold wire_of, message_len.
    rewrite <- (firstn_skipn (e_pos e + k) (e_header e ++ _)) at 1.
    generalize (e_header e ++ firstn (N.to_nat (le_dec (e_header e))) (e_buf e)). clear. intros l.
    rewrite firstn_skipn. revert l. induction (e_pos e) as [|p IH]; intros l; [reflexivity|].
    destruct l as [|x l]; cbn [skipn Nat.add]; [now rewrite !skipn_nil|apply IH].
Qed.

(** What one call of [write_to_stdio] does. *)
Lemma write_ok e pend v : eok e pend ->
  match v with
  | _ => pend = [] -> write_to_stdio e v = (e, [], Ok (0, true))
  end /\
  (pend <> [] ->
   match v with
   | WFail k => write_to_stdio e v = (e, [], Err (EIo k))
   | Accept k => exists e' out, eok e' (skipn (length out) pend) /\ out = firstn (length out) pend /\
       length out <= k /\ (0 < k -> 0 < length out) /\ e_buf e' = e_buf e /\
       write_to_stdio e v = (e', out, Ok (length out, match skipn (length out) pend with [] => true | _ => false end))
   end).
Proof.
  intros K. unfold write_to_stdio. rewrite (exhausted_ok _ _ K). split.
  - intros ->. now destruct v.
  - intros N. destruct pend as [|b pend]; [congruence|].
    destruct (next_slice_ok _ _ K) as (s & r & E & P & Ns). specialize (Ns N). rewrite E.
    destruct v as [k|k]; [|reflexivity].
    assert (length (firstn k s) <= length (b :: pend)) as Lo.
    { rewrite P, app_length, firstn_length. lia. }
    destruct (advance_ok e (b :: pend) (length (firstn k s)) K Lo) as (e' & A & K' & Bf).
    exists e', (firstn k s). split; [exact K'|]. split.
    { rewrite P, firstn_app. rewrite firstn_length.
      replace (Nat.min k (length s) - length s) with 0 by lia. cbn [firstn]. rewrite app_nil_r.
      destruct (le_lt_dec k (length s)).
      - now rewrite Nat.min_l by lia.
      - rewrite Nat.min_r by lia. rewrite !firstn_all2 by lia. reflexivity. }
    split; [rewrite firstn_length; lia|]. split.
    { intros Hk. rewrite firstn_length. destruct s; [congruence|]. cbn [length]. lia. }
    split; [exact Bf|].
    rewrite A, (exhausted_ok _ _ K'). reflexivity.
Qed.

Lemma message_len_enc buf n p : (n < 2 ^ 64)%N ->
  message_len {| e_buf := buf; e_header := le_enc 8 n; e_pos := p |} = n.
Proof. intros H. unfold message_len. cbn [e_header]. rewrite le_dec_enc. now apply N.mod_small. Qed.

Lemma set_len_pos_ok buf h p0 n p : (n < 2 ^ 64)%N -> (n <= N.of_nat (length buf))%N ->
  (N.of_nat (p - 8) <= n)%N ->
  set_msg_len_and_position n p {| e_buf := buf; e_header := h; e_pos := p0 |} =
  ({| e_buf := buf; e_header := le_enc 8 n; e_pos := p |}, Ok tt).
Proof.
  intros B L Lp. unfold set_msg_len_and_position, set_message_len, set_header, msg_in_buf, pos_in_msg.
  cbn [e_buf e_header e_pos]. rewrite !message_len_enc by exact B.
  cbn [e_buf]. rewrite (proj2 (N.leb_le _ _)) by lia. cbn [negb].
  unfold e_moff. cbn [e_pos]. rewrite (proj2 (N.leb_le _ _)) by (unfold HEADER_SIZE; lia). cbn [negb].
  unfold set_writing_position, pos_in_buf, pos_in_msg, e_moff. cbn [e_buf e_header e_pos].
  rewrite message_len_enc by exact B. unfold HEADER_SIZE.
  rewrite (proj2 (Nat.leb_le _ _)) by lia. rewrite (proj2 (N.leb_le _ _)) by lia. reflexivity.
Qed.

Lemma from_buffer_ok buf :
  from_buffer buf = ({| e_buf := buf; e_header := le_enc 8 0; e_pos := 8 |}, Ok tt).
Proof.
  unfold from_buffer, enc_clear. rewrite set_len_pos_ok by lia. cbn [unwrapped].
  unfold set_message_offset, set_writing_position, pos_in_buf, pos_in_msg, e_moff, HEADER_SIZE.
  cbn [e_buf e_header e_pos Nat.add Nat.sub]. rewrite message_len_enc by lia. reflexivity.
Qed.

Lemma eok_fresh buf n p : (n < 2 ^ 64)%N -> (n <= N.of_nat (length buf))%N -> p <= 8 + N.to_nat n ->
  eok {| e_buf := buf; e_header := le_enc 8 n; e_pos := p |}
      (skipn p (le_enc 8 n ++ firstn (N.to_nat n) buf)).
Proof.
  intros B L Lp. constructor; unfold wire_of; rewrite ?message_len_enc by exact B; cbn [e_buf e_header e_pos]; auto.
Qed.

Lemma eok_idle buf : eok {| e_buf := buf; e_header := le_enc 8 0; e_pos := 8 |} [].
Proof. exact (eok_fresh buf 0 8 ltac:(lia) ltac:(lia) ltac:(lia)). Qed.

(** A user of one encoder buffer for many messages copies the message to the start of the buffer and restarts
    (rosenpass/src/api/mio/connection.rs, wireguard-broker). *)
Definition load_message (m : bytes) (e : enc) : enc * res enc_err unit :=
  restart_with (N.of_nat (length m)) {| e_buf := splice 0 m (e_buf e); e_header := e_header e; e_pos := e_pos e |}.

Lemma load_ok m e : length m <= length (e_buf e) -> (N.of_nat (length m) < 2 ^ 64)%N ->
  exists e', load_message m e = (e', Ok tt) /\ eok e' (frame m) /\ length (e_buf e') = length (e_buf e).
Proof.
  intros L B. unfold load_message, restart_with.
  rewrite set_len_pos_ok; [|exact B|rewrite splice_length by lia; lia|lia].
  eexists. split; [reflexivity|]. split; [|apply splice_length; lia].
  pose proof (eok_fresh (splice 0 m (e_buf e)) (N.of_nat (length m)) 0 B) as K.
  rewrite splice_length in K by lia. specialize (K ltac:(lia) ltac:(lia)).
  cbn [skipn] in K. rewrite Nat2N.id in K. unfold splice in K at 2. cbn [firstn app Nat.add] in K.
  rewrite firstn_app, Nat.sub_diag in K. cbn [firstn] in K. rewrite app_nil_r, firstn_all in K. exact K.
Qed.

Lemma from_message_ok m : (N.of_nat (length m) < 2 ^ 64)%N ->
  from_message m = ({| e_buf := m; e_header := le_enc 8 (N.of_nat (length m)); e_pos := 0 |}, Ok tt) /\
  eok {| e_buf := m; e_header := le_enc 8 (N.of_nat (length m)); e_pos := 0 |} (frame m).
Proof.
  intros B. unfold from_message. rewrite from_buffer_ok. unfold restart_with.
  rewrite set_len_pos_ok by lia. split; [reflexivity|].
  pose proof (eok_fresh m (N.of_nat (length m)) 0 B ltac:(lia) ltac:(lia)) as K.
  cbn [skipn] in K. now rewrite Nat2N.id, firstn_all in K.
Qed.

(** * C18 *)

(** Whole-message calls: whatever portions the writer accepts, what it received is a prefix of the
    frame, and the call returns success exactly when it has received all of it. *)
Lemma write_all_ok vs : forall e pend e' out r, eok e pend -> write_all vs e = (e', out, r) ->
  (exists left, pend = out ++ left /\ (r = Some (Ok tt) -> left = []) /\ eok e' left) /\
  match r with
  | None | Some (Ok _) => True
  | Some (Err x) => exists k, x = EIo k /\ In (WFail k) vs /\ k <> KInterrupted
  | Some Panic => False
  end.
Proof.
  induction vs as [|v vs IH]; intros e pend e' out r K E; cbn [write_all] in E.
  - injection E as <- <- <-. split; [|exact Logic.I]. exists pend. split; [reflexivity|]. split; [discriminate|exact K].
  - destruct (write_ok e pend v K) as (W0 & W1).
    destruct pend as [|b pend].
    + rewrite (W0 eq_refl) in E. injection E as <- <- <-. split; [|exact Logic.I]. exists []. auto.
    + specialize (W1 ltac:(discriminate)). destruct v as [k|k].
      * destruct W1 as (e2 & o & K2 & Eo & _ & _ & _ & W). rewrite W in E.
        assert (o ++ skipn (length o) (b :: pend) = b :: pend) as Ap.
        { rewrite Eo at 1. apply firstn_skipn. }
        destruct (skipn (length o) (b :: pend)) as [|b2 p2] eqn:Sk.
        -- injection E as <- <- <-. split; [|exact Logic.I]. exists []. rewrite app_nil_r in *. auto.
        -- destruct (write_all vs e2) as [[e3 o3] r3] eqn:W3. injection E as <- <- <-.
           destruct (IH _ _ _ _ _ K2 W3) as ((l & El & Hr & K3) & R).
           split.
           ++ exists l. rewrite <- app_assoc, <- El. auto.
           ++ destruct r3 as [[|x|]|]; auto. destruct R as (k' & ? & ? & ?). exists k'. cbn. auto.
      * rewrite W1 in E. destruct k.
        -- destruct (write_all vs e) as [[e3 o3] r3] eqn:W3. injection E as <- <- <-.
           destruct (IH _ _ _ _ _ K W3) as (P & R). cbn [app]. split; [exact P|].
           destruct r3 as [[|x|]|]; auto. destruct R as (k' & ? & ? & ?). exists k'. cbn. auto.
        -- injection E as <- <- <-. split; [exists (b :: pend); split; [reflexivity|split; [discriminate|exact K]]|].
           exists KWouldBlock. cbn. repeat split; auto. discriminate.
        -- injection E as <- <- <-. split; [exists (b :: pend); split; [reflexivity|split; [discriminate|exact K]]|].
           exists KUnexpectedEof. cbn. repeat split; auto. discriminate.
        -- injection E as <- <- <-. split; [exists (b :: pend); split; [reflexivity|split; [discriminate|exact K]]|].
           exists KOther. cbn. repeat split; auto. discriminate.
Qed.

Theorem C18_write_all : forall m vs e e' out r,
  (N.of_nat (length m) < 2 ^ 64)%N -> from_message m = (e, Ok tt) -> write_all vs e = (e', out, r) ->
  (exists left, frame m = out ++ left) /\
  (r = Some (Ok tt) -> out = frame m) /\
  (forall x, r = Some x -> x = Ok tt \/ exists k, x = Err (EIo k) /\ In (WFail k) vs /\ k <> KInterrupted).
Proof.
  intros m vs e e' out r B F W. destruct (from_message_ok m B) as (F' & K).
  rewrite F in F'. apply (f_equal fst) in F'. cbn [fst] in F'. subst e.
  destruct (write_all_ok vs _ _ _ _ _ K W) as ((l & El & Hr & _) & R).
  split; [exists l; exact El|]. split.
  - intros ->. rewrite El, (Hr eq_refl). now rewrite app_nil_r.
  - intros x ->. destruct x as [[]|x|]; [auto| |destruct R].
    destruct R as (k & -> & ? & ?). right. exists k. auto.
Qed.
Print Assumptions C18_write_all.

(** A writer that accepts something each time it does not interrupt is given the whole message after at most
    as many acceptances as there are bytes. *)
Definition accepting (v : wr_ev) : bool := match v with Accept (S _) => true | _ => false end.
Definition harmless (v : wr_ev) : bool := match v with Accept (S _) | WFail KInterrupted => true | _ => false end.
Theorem C18_write_all_returns : forall m vs e e' out r,
  (N.of_nat (length m) < 2 ^ 64)%N -> from_message m = (e, Ok tt) ->
  forallb harmless vs = true -> length (frame m) <= length (filter accepting vs) ->
  write_all vs e = (e', out, r) -> r = Some (Ok tt).
Proof.
  intros m vs e e' out r B F Hh Hl W. destruct (from_message_ok m B) as (F' & K).
  rewrite F in F'. apply (f_equal fst) in F'. cbn [fst] in F'. subst e. clear F.
  assert (frame m <> []) as Ne.
  { intros Z. apply (f_equal (@length byte)) in Z. unfold frame in Z.
    rewrite app_length, le_enc_length in Z. cbn in Z. lia. }
  revert Ne Hl K W. generalize (frame m). generalize {| e_buf := m; e_header := le_enc 8 (N.of_nat (length m)); e_pos := 0 |}.
  revert e' out r. induction vs as [|v vs IH]; intros e' out r e pend Ne Hl K W.
  - cbn in Hl. destruct pend; [congruence|cbn in Hl; lia].
  - cbn [forallb] in Hh. apply andb_true_iff in Hh as [Hv Hh]. cbn [write_all] in W.
    destruct (write_ok e pend v K) as (_ & W1). specialize (W1 Ne). destruct v as [k|k].
    + destruct W1 as (e2 & o & K2 & Eo & _ & Pos & _ & We). rewrite We in W.
      destruct k as [|k]; [discriminate|]. specialize (Pos ltac:(lia)).
      cbn [filter accepting length] in Hl.
      destruct (skipn (length o) pend) as [|b2 p2] eqn:Sk.
      * now injection W as <- <- <-.
      * destruct (write_all vs e2) as [[e3 o3] r3] eqn:W3. injection W as <- <- <-.
        eapply (IH Hh _ _ _ e2 (b2 :: p2)); [discriminate| |exact K2|exact W3].
        rewrite <- Sk, skipn_length. lia.
    + rewrite W1 in W. destruct k; try discriminate.
      destruct (write_all vs e) as [[e3 o3] r3] eqn:W3. injection W as <- <- <-.
      cbn [filter accepting] in Hl. eapply IH; eauto.
Qed.
Print Assumptions C18_write_all_returns.

(** Reading a whole message that is followed by anything else. *)
Lemma frame_length m : length (frame m) = 8 + length m.
Proof. unfold frame. now rewrite app_length, le_enc_length. Qed.
Lemma frame_announced m c : (N.of_nat (length m) < 2 ^ 64)%N -> 8 <= length c ->
  (exists l, frame m = c ++ l) -> announced c = N.of_nat (length m).
Proof.
  intros B L (l & E). rewrite <- (announced_app c l L). rewrite <- E. unfold announced, frame.
  rewrite firstn_app, (firstn_all2 (le_enc 8 _)), le_enc_length by (rewrite le_enc_length; lia).
  rewrite Nat.sub_diag, firstn_O, app_nil_r. rewrite le_dec_enc. now apply N.mod_small.
Qed.
Lemma frame_missing m c l : (N.of_nat (length m) < 2 ^ 64)%N -> frame m = c ++ l -> missing c <= length l.
Proof.
  intros B E. unfold missing. pose proof (f_equal (@length byte) E) as Le.
  rewrite app_length, frame_length in Le.
  destruct (Nat.ltb_spec (length c) 8); [lia|].
  rewrite (frame_announced m c B) by (eauto; lia). lia.
Qed.
Lemma frame_status m c l n : (N.of_nat (length m) < 2 ^ 64)%N -> length m <= n -> frame m = c ++ l ->
  status_of n c = match l with [] => Done m | _ => Need end.
Proof.
  intros B L E. destruct (C19_status n m B) as ((S1 & S2) & _); [|].
  { exact L. }
  destruct l as [|x l].
  - rewrite app_nil_r in E. now rewrite <- E.
  - assert (firstn (length c) (frame m) = c) as Ec.
    { rewrite E, firstn_app, Nat.sub_diag, firstn_all. cbn. now rewrite app_nil_r. }
    rewrite <- Ec. apply S2. rewrite E, app_length. cbn [length]. lia.
Qed.

Lemma firstn_min_len {A} k (l r : list A) : exists l', firstn (Nat.min k (length l)) (l ++ r) = firstn k l /\ l = firstn k l ++ l'.
Proof.
  exists (skipn k l). split; [|symmetry; apply firstn_skipn].
  rewrite firstn_app. replace (Nat.min k (length l) - length l) with 0 by lia.
  rewrite firstn_O, app_nil_r. destruct (le_lt_dec k (length l)).
  - now rewrite Nat.min_l by lia.
  - rewrite Nat.min_r by lia. rewrite !firstn_all2 by lia. reflexivity.
Qed.

(** What the decoder takes from a stream that starts with the rest [l] of its frame. *)
Lemma frame_read m n d c l k rest : (N.of_nat (length m) < 2 ^ 64)%N -> length m <= n ->
  dok n d c -> frame m = c ++ l -> l <> [] ->
  exists d' data l', dok n d' (c ++ data) /\ l = data ++ l' /\ length data <= k /\
    (0 < k -> 0 < length data) /\
    read_from_stdio d (Give k) (l ++ rest) =
      (d', l' ++ rest, Ok (length data, match l' with [] => Some m | _ => None end)).
Proof.
  intros B L K E Nl. pose proof (read_ok n d c (Give k) (l ++ rest) K) as R.
  pose proof (frame_status m c l n B L E) as St.
  destruct l as [|b l]; [congruence|]. rewrite St in R. cbn zeta in R.
  destruct R as (d' & K' & R).
  pose proof (frame_missing m c _ B E) as Lm.
  pose proof (need_missing _ _ _ K St) as Pm.
  set (data := firstn (Nat.min k (missing c)) ((b :: l) ++ rest)) in *.
  assert (data = firstn (Nat.min k (missing c)) (b :: l)) as Ed.
  { unfold data. rewrite firstn_app. replace (Nat.min k (missing c) - length (b :: l)) with 0 by lia.
    now rewrite firstn_O, app_nil_r. }
  assert (b :: l = data ++ skipn (Nat.min k (missing c)) (b :: l)) as Sp
    by (rewrite Ed; symmetry; apply firstn_skipn).
  assert (length data = Nat.min k (missing c)) as Ld by (rewrite Ed, firstn_length; lia).
  exists d', data, (skipn (Nat.min k (missing c)) (b :: l)).
  split; [exact K'|]. split; [exact Sp|]. split; [lia|]. split; [lia|].
  rewrite R. f_equal; [f_equal|].
  - rewrite skipn_app, Ld. f_equal.
    replace (Nat.min k (missing c) - length (b :: l)) with 0 by lia. reflexivity.
  - rewrite (frame_status m (c ++ data) (skipn (Nat.min k (missing c)) (b :: l)) n B L).
    + now destruct (skipn _ (b :: l)).
    + rewrite <- app_assoc, <- Sp. exact E.
Qed.

Definition giving (e : rd_ev) : bool := match e with Give (S _) => true | _ => false end.
Definition benign (e : rd_ev) : bool := match e with Give (S _) | RFail KInterrupted => true | _ => false end.

Lemma read_all_frame m n rest : (N.of_nat (length m) < 2 ^ 64)%N -> length m <= n ->
  forall es d c l d' left r, dok n d c -> frame m = c ++ l -> l <> [] -> forallb benign es = true ->
  read_all es d (l ++ rest) = (d', left, r) ->
  (r = None /\ length (filter giving es) < length l /\ exists l', left = l' ++ rest) \/
  (r = Some (Ok m) /\ left = rest /\ dok n d' (frame m)).
Proof.
  intros B L. induction es as [|e es IH]; intros d c l d' left r K E Nl Hb R; cbn [read_all] in R.
  - injection R as <- <- <-. left. split; [reflexivity|]. split; [|exists l; reflexivity].
    destruct l; [congruence|]. cbn. lia.
  - cbn [forallb] in Hb. apply andb_true_iff in Hb as [Hv Hb]. destruct e as [k|k].
    + destruct k as [|k]; [discriminate|].
      destruct (frame_read m n d c l (S k) rest B L K E Nl) as (d2 & data & l' & K2 & El & _ & Pos & Rd).
      rewrite Rd in R. specialize (Pos ltac:(lia)).
      assert (frame m = (c ++ data) ++ l') as E2 by (rewrite <- app_assoc, <- El; exact E).
      destruct (length data) as [|ld] eqn:Ld; [lia|].
      destruct l' as [|b l'].
      * injection R as <- <- <-. right. rewrite app_nil_r in E2. rewrite E2.
        rewrite (message_ok _ _ _ K2), (frame_status m (c ++ data) [] n B L) by (now rewrite app_nil_r).
        auto.
      * destruct (IH d2 (c ++ data) (b :: l') d' left r K2 E2 ltac:(discriminate) Hb R)
          as [(-> & Lt & Lf)|F]; [left|right; exact F].
        split; [reflexivity|]. split; [|exact Lf].
        cbn [filter giving length]. rewrite El, app_length. cbn [length] in *. lia.
    + destruct k; try discriminate. pose proof (read_ok n d c (RFail KInterrupted) (l ++ rest) K) as Rd.
      rewrite (frame_status m c l n B L E) in Rd. destruct l as [|b l]; [congruence|].
      rewrite Rd in R. eapply IH; eauto.
Qed.

(** A blocking read of one message: it gives exactly the message and leaves what follows it untouched, and it
    returns after at most as many non-empty reads as the frame has bytes. *)
Theorem C18_read_all : forall m buf rest es d left r,
  (N.of_nat (length m) < 2 ^ 64)%N -> length m <= length buf -> forallb benign es = true ->
  read_all es (dec_new buf) (frame m ++ rest) = (d, left, r) ->
  (r = None /\ length (filter giving es) < length (frame m)) \/
  (r = Some (Ok m) /\ left = rest).
Proof.
  intros m buf rest es d left r B L Hb R.
  assert (frame m <> []) as Ne.
  { intros Z. apply (f_equal (@length byte)) in Z. rewrite frame_length in Z. cbn in Z. lia. }
  destruct (read_all_frame m (length buf) rest B L es (dec_new buf) [] (frame m) d left r (dok_new buf) eq_refl Ne Hb R)
    as [(-> & Lt & _)|(-> & -> & _)]; auto.
Qed.
Print Assumptions C18_read_all.

Example C18_blocking_nonvacuous :
  (exists e e', from_message [x01; x02] = (e, Ok tt) /\
     write_all [Accept 5; WFail KInterrupted; Accept 9; Accept 1; Accept 7] e = (e', frame [x01; x02], Some (Ok tt))) /\
  exists d, read_all [Give 3; Give 100; RFail KInterrupted; Give 100] (dec_new (zeros 2)) (frame [x01; x02] ++ [xff])
    = (d, [xff], Some (Ok [x01; x02])).
Proof. split; [eexists _, _; split|eexists]; vm_compute; reflexivity. Qed.

(** ** A stream of messages over a non-blocking connection *)

(** A sender with one encoder, a connection, and a receiver with one decoder. *)
Record conn := {
  w_enc : enc;            (** the sender's encoder *)
  w_todo : list bytes;    (** messages not yet given to it *)
  c_net : bytes;          (** bytes in transit *)
  r_dec : dec;            (** the receiver's decoder *)
  r_got : list bytes      (** messages received *)
}.
Inductive cev :=
| CWrite (v : wr_ev)    (** the sender calls [write_to_stdio] *)
| CNext                 (** if the encoder is exhausted, the sender gives it the next message *)
| CRead (e : rd_ev)     (** the receiver calls [read_from_stdio]; nothing happens if nothing is in transit *)
| CTake.                (** the receiver takes the message, if there is one, and calls [clear] *)

(** [None]: a call panicked, or a message was reported as too large. *)
Definition cstep (v : cev) (s : conn) : option conn :=
  match v with
  | CWrite v =>
      match write_to_stdio (w_enc s) v with
      | (_, _, Panic) => None
      | (e, out, _) => Some {| w_enc := e; w_todo := w_todo s; c_net := c_net s ++ out; r_dec := r_dec s; r_got := r_got s |}
      end
  | CNext =>
      match exhausted (w_enc s), w_todo s with
      | Ok true, m :: t =>
          match load_message m (w_enc s) with
          | (e, Ok tt) => Some {| w_enc := e; w_todo := t; c_net := c_net s; r_dec := r_dec s; r_got := r_got s |}
          | _ => None
          end
      | Ok _, _ => Some s
      | _, _ => None
      end
  | CRead e =>
      match c_net s with
      | [] => Some s
      | _ =>
          match read_from_stdio (r_dec s) e (c_net s) with
          | (_, _, Panic) | (_, _, Err TooLarge) => None
          | (d, rem, _) => Some {| w_enc := w_enc s; w_todo := w_todo s; c_net := rem; r_dec := d; r_got := r_got s |}
          end
      end
  | CTake =>
      match dec_message (r_dec s) with
      | Ok (Some m) => Some {| w_enc := w_enc s; w_todo := w_todo s; c_net := c_net s;
                               r_dec := dec_clear (r_dec s); r_got := r_got s ++ [m] |}
      | Ok None => Some s
      | _ => None
      end
  end.
Fixpoint crun (vs : list cev) (s : conn) : option conn :=
  match vs with
  | [] => Some s
  | v :: vs => match cstep v s with Some s' => crun vs s' | None => None end
  end.
Definition cstart (wbuf rbuf : bytes) (ms : list bytes) : conn :=
  {| w_enc := fst (from_buffer wbuf); w_todo := ms; c_net := []; r_dec := dec_new rbuf; r_got := [] |}.

Definition fits (a b : nat) (m : bytes) : Prop :=
  length m <= a /\ length m <= b /\ (N.of_nat (length m) < 2 ^ 64)%N.

(** [ms]: all messages; [rest]: those not yet received. *)
Record cinv (a b : nat) (ms : list bytes) (s : conn) (rest : list bytes) (c pend : bytes) : Prop := {
  ci_fit : Forall (fits a b) ms;
  ci_ms : ms = r_got s ++ rest;
  ci_e : eok (w_enc s) pend;
  ci_eb : length (e_buf (w_enc s)) = a;
  ci_d : dok b (r_dec s) c;
  ci_eq : c ++ c_net s ++ pend ++ concat (map frame (w_todo s)) = concat (map frame rest);
  ci_todo : exists done_, ms = done_ ++ w_todo s
}.
(** What is left to do. *)
Definition work (s : conn) (rest : list bytes) (pend : bytes) : nat :=
  2 * length pend + 2 * length (concat (map frame (w_todo s))) + length (w_todo s) + length (c_net s) + length rest.

Lemma head_frame a b ms s rest c pend : cinv a b ms s rest c pend ->
  match rest with
  | [] => c = [] /\ c_net s = [] /\ pend = [] /\ w_todo s = []
  | m :: rest' => fits a b m /\ exists l, frame m = c ++ l /\
      c_net s ++ pend ++ concat (map frame (w_todo s)) = l ++ concat (map frame rest')
  end.
Proof.
  intros K. pose proof (ci_eq _ _ _ _ _ _ _ K) as E. destruct rest as [|m rest].
  - cbn in E. apply app_eq_nil in E as [E1 E]. apply app_eq_nil in E as [E2 E].
    apply app_eq_nil in E as [E3 E4]. split; [exact E1|]. split; [exact E2|]. split; [exact E3|].
    destruct (w_todo s) as [|m t]; [reflexivity|]. cbn [map concat] in E4. apply app_eq_nil in E4 as [E4 _].
    apply (f_equal (@length byte)) in E4. rewrite frame_length in E4. discriminate.
  - assert (fits a b m) as F.
    { pose proof (ci_fit _ _ _ _ _ _ _ K) as F. rewrite Forall_forall in F. apply F.
      rewrite (ci_ms _ _ _ _ _ _ _ K). apply in_or_app. right. left. reflexivity. }
    split; [exact F|]. cbn [map concat] in E.
    assert (length c <= length (frame m)) as Lc.
    { destruct (le_lt_dec (length c) (length (frame m))) as [|L]; [auto|exfalso].
      assert (announced c = N.of_nat (length m)) as An.
      { apply (f_equal (firstn (length (frame m)))) in E.
        rewrite firstn_app in E. replace (length (frame m) - length c) with 0 in E by lia.
        rewrite firstn_O, app_nil_r in E. rewrite firstn_app, Nat.sub_diag, firstn_all, firstn_O, app_nil_r in E.
        rewrite <- (firstn_skipn (length (frame m)) c). rewrite announced_app.
        2:{ rewrite firstn_length. rewrite frame_length in *. lia. }
        rewrite E. apply (frame_announced m); [apply F|rewrite frame_length; lia|exists []; now rewrite app_nil_r]. }
      pose proof (dk_sz _ _ _ (ci_d _ _ _ _ _ _ _ K)) as S. rewrite An in S. rewrite frame_length in L. lia. }
    exists (skipn (length c) (frame m)).
    assert (c = firstn (length c) (frame m)) as Ec.
    { apply (f_equal (firstn (length c))) in E.
      rewrite firstn_app, Nat.sub_diag, firstn_all, firstn_O, app_nil_r in E.
      rewrite firstn_app in E. replace (length c - length (frame m)) with 0 in E by lia.
      now rewrite firstn_O, app_nil_r in E. }
    split.
    { rewrite Ec at 1. symmetry. apply firstn_skipn. }
    apply (app_inv_head c). rewrite E. rewrite app_assoc. f_equal.
    rewrite Ec at 1. symmetry. apply firstn_skipn.
Qed.

Lemma app_split {A} (x y u v : list A) : x ++ y = u ++ v -> length x <= length u ->
  exists t, u = x ++ t /\ y = t ++ v.
Proof.
  intros E L. exists (skipn (length x) u). split.
  - rewrite <- (firstn_skipn (length x) u) at 1. f_equal.
    apply (f_equal (firstn (length x))) in E.
    rewrite firstn_app, Nat.sub_diag, firstn_all, firstn_O, app_nil_r in E.
    rewrite firstn_app in E. replace (length x - length u) with 0 in E by lia.
    now rewrite firstn_O, app_nil_r in E.
  - apply (f_equal (skipn (length x))) in E. rewrite skipn_app, Nat.sub_diag, skipn_all in E.
    rewrite skipn_app in E. replace (length x - length u) with 0 in E by lia. exact E.
Qed.

(** One event: it keeps the invariant and either changes nothing or reduces the work left. *)
Lemma cstep_inv a b ms v s rest c pend : cinv a b ms s rest c pend ->
  exists s' rest' c' pend', cstep v s = Some s' /\ cinv a b ms s' rest' c' pend' /\
    (c_net s' = c_net s /\ w_todo s' = w_todo s /\ rest' = rest /\ c' = c /\ pend' = pend \/
     work s' rest' pend' < work s rest pend).
Proof.
  intros K. pose proof (ci_e _ _ _ _ _ _ _ K) as Ke. pose proof (ci_d _ _ _ _ _ _ _ K) as Kd.
  assert (exists s' rest' c' pend', Some s = Some s' /\ cinv a b ms s' rest' c' pend' /\
    (c_net s' = c_net s /\ w_todo s' = w_todo s /\ rest' = rest /\ c' = c /\ pend' = pend \/
     work s' rest' pend' < work s rest pend)) as Same.
  { exists s, rest, c, pend. auto 8. }
  destruct v as [v| |e|]; cbn [cstep].
  - destruct (write_ok _ _ v Ke) as (W0 & W1). destruct pend as [|p0 pend].
    + rewrite (W0 eq_refl). rewrite app_nil_r. destruct s; exact Same.
    + specialize (W1 ltac:(discriminate)). destruct v as [k|k].
      * destruct W1 as (e' & out & Ke' & Eo & _ & _ & Bf & W). rewrite W.
        assert (out ++ skipn (length out) (p0 :: pend) = p0 :: pend) as Ap
          by (rewrite Eo at 1; apply firstn_skipn).
        eexists _, rest, c, (skipn (length out) (p0 :: pend)). split; [reflexivity|]. split.
        -- constructor; cbn [w_enc w_todo c_net r_dec r_got].
           ++ apply K. ++ apply (ci_ms _ _ _ _ _ _ _ K). ++ exact Ke'.
           ++ rewrite Bf. apply (ci_eb _ _ _ _ _ _ _ K). ++ exact Kd.
           ++ rewrite <- (ci_eq _ _ _ _ _ _ _ K), <- app_assoc. do 2 f_equal.
              rewrite app_assoc, Ap. reflexivity.
           ++ apply (ci_todo _ _ _ _ _ _ _ K).
        -- destruct out as [|o0 out].
           ++ left. cbn [w_todo c_net length skipn]. rewrite app_nil_r. auto.
           ++ right. unfold work. cbn [w_todo c_net].
              assert (length (o0 :: out) <= length (p0 :: pend)) by (rewrite <- Ap, app_length; lia).
              rewrite skipn_length, app_length. cbn [length] in *. lia.
      * rewrite W1. rewrite app_nil_r. destruct s; exact Same.
  - rewrite (exhausted_ok _ _ Ke). destruct pend as [|p0 pend].
    2:{ destruct (w_todo s); exact Same. }
    destruct (w_todo s) as [|m t] eqn:Et; [exact Same|].
    assert (fits a b m) as F.
    { pose proof (ci_fit _ _ _ _ _ _ _ K) as F. rewrite Forall_forall in F. apply F.
      destruct (ci_todo _ _ _ _ _ _ _ K) as (dn & ->). rewrite Et. apply in_or_app. right. left. reflexivity. }
    destruct (load_ok m (w_enc s)) as (e' & Ld & Ke' & Lb).
    { rewrite (ci_eb _ _ _ _ _ _ _ K). apply F. } { apply F. }
    rewrite Ld. eexists _, rest, c, (frame m). split; [reflexivity|]. split.
    + constructor; cbn [w_enc w_todo c_net r_dec r_got].
      * apply K. * apply (ci_ms _ _ _ _ _ _ _ K). * exact Ke'.
      * rewrite Lb. apply (ci_eb _ _ _ _ _ _ _ K). * exact Kd.
      * rewrite <- (ci_eq _ _ _ _ _ _ _ K), Et. reflexivity.
      * destruct (ci_todo _ _ _ _ _ _ _ K) as (dn & E). exists (dn ++ [m]). rewrite E, Et, <- app_assoc. reflexivity.
    + right. unfold work. cbn [w_todo c_net]. rewrite Et. cbn [map concat length]. rewrite app_length. lia.
  - destruct (c_net s) as [|n0 net] eqn:En; [exact Same|].
    pose proof (head_frame _ _ _ _ _ _ _ K) as H. destruct rest as [|m rest].
    { destruct H as (_ & H & _). rewrite En in H. discriminate. }
    destruct H as (F & l & El & Eq). rewrite En in Eq.
    pose proof (read_ok b (r_dec s) c e (n0 :: net) Kd) as R.
    rewrite (frame_status m c l b) in R by (apply F || exact El).
    destruct l as [|l0 l].
    { destruct e; rewrite R; rewrite <- En in Same |- *; destruct s; exact Same. }
    destruct e as [k|k].
    2:{ rewrite R. rewrite <- En in Same |- *; destruct s; exact Same. }
    cbn zeta in R. set (data := firstn (Nat.min k (missing c)) (n0 :: net)) in *.
    destruct R as (d' & Kd' & R). rewrite R.
    assert (length data <= length (n0 :: net)) as Ln by (unfold data; rewrite firstn_length; lia).
    assert (firstn (length data) (n0 :: net) = data) as Ed by apply firstn_len.
    eexists _, (m :: rest), (c ++ data), pend. split; [reflexivity|]. split.
    + constructor; cbn [w_enc w_todo c_net r_dec r_got].
      * apply K. * apply (ci_ms _ _ _ _ _ _ _ K). * exact Ke. * apply (ci_eb _ _ _ _ _ _ _ K). * exact Kd'.
      * rewrite <- (ci_eq _ _ _ _ _ _ _ K), En, <- app_assoc. f_equal. rewrite app_assoc. f_equal.
        rewrite <- Ed at 1. apply firstn_skipn.
      * apply (ci_todo _ _ _ _ _ _ _ K).
    + destruct data as [|x data'] eqn:Edata.
      * left. cbn [w_todo c_net length skipn]. rewrite app_nil_r. auto.
      * right. unfold work. cbn [w_todo c_net]. rewrite En, skipn_length. cbn [length] in *. lia.
  - rewrite (message_ok _ _ _ Kd).
    pose proof (head_frame _ _ _ _ _ _ _ K) as H. destruct rest as [|m rest].
    { destruct H as (-> & _). exact Same. }
    destruct H as (F & l & El & Eq).
    rewrite (frame_status m c l b) by (apply F || exact El).
    destruct l as [|l0 l]; [|exact Same].
    rewrite app_nil_r in El. subst c.
    eexists _, rest, [], pend. split; [reflexivity|]. split.
    + constructor; cbn [w_enc w_todo c_net r_dec r_got].
      * apply K. * rewrite <- app_assoc. apply (ci_ms _ _ _ _ _ _ _ K). * exact Ke.
      * apply (ci_eb _ _ _ _ _ _ _ K). * eapply dok_clear, Kd.
      * exact Eq.
      * apply (ci_todo _ _ _ _ _ _ _ K).
    + right. unfold work. cbn [w_todo c_net length]. lia.
Qed.

Lemma cstart_inv wbuf rbuf ms : Forall (fits (length wbuf) (length rbuf)) ms ->
  cinv (length wbuf) (length rbuf) ms (cstart wbuf rbuf ms) ms [] [].
Proof.
  intros F. constructor; cbn [cstart w_enc w_todo c_net r_dec r_got]; rewrite ?from_buffer_ok; cbn [fst e_buf]; auto.
  - apply eok_idle.
  - apply dok_new.
  - exists []. reflexivity.
Qed.

Lemma crun_inv a b ms vs : forall s rest c pend, cinv a b ms s rest c pend ->
  exists s' rest' c' pend', crun vs s = Some s' /\ cinv a b ms s' rest' c' pend' /\
    work s' rest' pend' <= work s rest pend.
Proof.
  induction vs as [|v vs IH]; intros s rest c pend K; cbn [crun].
  - exists s, rest, c, pend. auto.
  - destruct (cstep_inv a b ms v s rest c pend K) as (s1 & r1 & c1 & p1 & E & K1 & W). rewrite E.
    destruct (IH _ _ _ _ K1) as (s2 & r2 & c2 & p2 & E2 & K2 & W2). exists s2, r2, c2, p2.
    split; [exact E2|]. split; [exact K2|].
    destruct W as [(En & Et & -> & -> & ->)|W]; [|lia].
    unfold work in *. rewrite En, Et in W2. lia.
Qed.

(** Whatever the schedule of reads, writes, partial transfers and failures: no call panics, no message is
    reported as too large, the messages received are a prefix of those sent, in order and unchanged; and when
    nothing is left to do they are all of them. *)
Theorem C18_stream : forall wbuf rbuf ms vs,
  Forall (fits (length wbuf) (length rbuf)) ms ->
  exists s, crun vs (cstart wbuf rbuf ms) = Some s /\
    (exists rest, ms = r_got s ++ rest) /\
    (w_todo s = [] -> exhausted (w_enc s) = Ok true -> c_net s = [] -> dec_message (r_dec s) = Ok None ->
     r_got s = ms).
Proof.
  intros wbuf rbuf ms vs F.
  destruct (crun_inv _ _ ms vs _ _ _ _ (cstart_inv wbuf rbuf ms F)) as (s & rest & c & pend & E & K & _).
  exists s. split; [exact E|]. split; [exists rest; apply (ci_ms _ _ _ _ _ _ _ K)|].
  intros T X Nn D. rewrite (exhausted_ok _ _ (ci_e _ _ _ _ _ _ _ K)) in X.
  destruct pend; [|discriminate]. rewrite (message_ok _ _ _ (ci_d _ _ _ _ _ _ _ K)) in D.
  pose proof (head_frame _ _ _ _ _ _ _ K) as H. destruct rest as [|m rest].
  - rewrite (ci_ms _ _ _ _ _ _ _ K). now rewrite app_nil_r.
  - exfalso. destruct H as (Fm & l & El & Eq). rewrite T, Nn in Eq. cbn in Eq.
    symmetry in Eq. apply app_eq_nil in Eq as [-> _].
    rewrite (frame_status m c []) in D by (apply Fm || exact El). discriminate.
Qed.
Print Assumptions C18_stream.

(** A round of events in which each side gets a chance, possibly among other events. *)
Definition fair_round (l : list cev) : Prop :=
  (exists k, In (CWrite (Accept (S k))) l) /\ In CNext l /\ (exists k, In (CRead (Give (S k))) l) /\ In CTake l.

Lemma idle_or_works a b ms s rest c pend v s' : cinv a b ms s rest c pend -> cstep v s = Some s' ->
  forall rest' c' pend', cinv a b ms s' rest' c' pend' ->
  c_net s' = c_net s /\ w_todo s' = w_todo s /\ rest' = rest /\ c' = c /\ pend' = pend ->
  match v with
  | CWrite (Accept (S _)) => pend = []
  | CNext => pend = [] -> w_todo s = []
  | CRead (Give (S _)) => c_net s = [] \/ exists m, status_of b c = Done m
  | CTake => status_of b c = Need
  | _ => True
  end.
Proof.
  intros K E rest' c' pend' K' (En & Et & -> & -> & ->).
  pose proof (ci_e _ _ _ _ _ _ _ K) as Ke. pose proof (ci_d _ _ _ _ _ _ _ K) as Kd.
  destruct v as [[[|k]|]| |[[|k]|]|]; auto; cbn [cstep] in E.
  - destruct pend as [|p0 pend]; [reflexivity|exfalso].
    destruct (write_ok _ _ (Accept (S k)) Ke) as (_ & W1). specialize (W1 ltac:(discriminate)).
    destruct W1 as (e' & out & _ & _ & _ & Pos & _ & W). rewrite W in E. specialize (Pos ltac:(lia)).
    injection E as <-. cbn [c_net] in En. apply (f_equal (@length byte)) in En. rewrite app_length in En. lia.
  - intros ->. rewrite (exhausted_ok _ _ Ke) in E. destruct (w_todo s) as [|m t] eqn:Ew; [reflexivity|exfalso].
    destruct (load_message m (w_enc s)) as [e' [[]| |]]; try discriminate.
    injection E as <-. cbn [w_todo] in Et. apply (f_equal (@length bytes)) in Et. cbn in Et. lia.
  - destruct (c_net s) as [|n0 net] eqn:Ec; [auto|right].
    pose proof (read_ok b (r_dec s) c (Give (S k)) (n0 :: net) Kd) as R.
    destruct (status_of b c) as [| |m] eqn:St; [exfalso| |eauto].
    + cbn zeta in R. destruct R as (d' & _ & R). rewrite R in E. injection E as <-.
      cbn [c_net] in En. apply (f_equal (@length byte)) in En. rewrite skipn_length in En.
      pose proof (need_missing _ _ _ Kd St). rewrite firstn_length in En. cbn [length] in En. destruct (missing c); lia.
    + rewrite R in E. discriminate.
  - rewrite (message_ok _ _ _ Kd) in E. destruct (status_of b c) as [| |m] eqn:St; [reflexivity|discriminate|exfalso].
    injection E as <-. pose proof (ci_ms _ _ _ _ _ _ _ K) as M1. pose proof (ci_ms _ _ _ _ _ _ _ K') as M2.
    cbn [r_got] in M2. rewrite M1 in M2. apply (f_equal (@length bytes)) in M2. rewrite !app_length in M2.
    cbn in M2. lia.
Qed.

Lemma round_works a b ms l : forall s rest c pend, cinv a b ms s rest c pend ->
  exists s' rest' c' pend', crun l s = Some s' /\ cinv a b ms s' rest' c' pend' /\
    (work s' rest' pend' < work s rest pend \/
     (c_net s' = c_net s /\ w_todo s' = w_todo s /\ rest' = rest /\ c' = c /\ pend' = pend) /\
     ((exists k, In (CWrite (Accept (S k))) l) -> pend = []) /\
     (In CNext l -> pend = [] -> w_todo s = []) /\
     ((exists k, In (CRead (Give (S k))) l) -> c_net s = [] \/ exists m, status_of b c = Done m) /\
     (In CTake l -> status_of b c = Need)).
Proof.
  induction l as [|v l IH]; intros s rest c pend K; cbn [crun].
  - exists s, rest, c, pend. split; [reflexivity|]. split; [exact K|]. right.
    repeat split; try (intros []; fail); intros [? []].
  - destruct (cstep_inv a b ms v s rest c pend K) as (s1 & r1 & c1 & p1 & E & K1 & W). rewrite E.
    destruct (IH _ _ _ _ K1) as (s2 & r2 & c2 & p2 & E2 & K2 & W2). exists s2, r2, c2, p2.
    split; [exact E2|]. split; [exact K2|].
    destruct W as [Sm|W].
    2:{ left. destruct W2 as [W2|((En & Et & -> & -> & ->) & _)]; [lia|].
        unfold work in *. rewrite En, Et. exact W. }
    pose proof (idle_or_works a b ms s rest c pend v s1 K E r1 c1 p1 K1 Sm) as Id.
    destruct Sm as (En & Et & -> & -> & ->).
    destruct W2 as [W2|((En2 & Et2 & -> & -> & ->) & A1 & A2 & A3 & A4)].
    { left. unfold work in *. rewrite En, Et in W2. exact W2. }
    right. split; [now rewrite En2, Et2|]. rewrite En, Et in *.
    split; [intros [k [->|H]]; [exact Id|apply A1; eauto]|].
    split; [intros [->|H]; [exact Id|apply A2, H]|].
    split; [intros [k [->|H]]; [exact Id|apply A3; eauto]|].
    intros [->|H]; [exact Id|apply A4, H].
Qed.

(** With fair scheduling everything arrives: after as many fair rounds as there is work, all messages
    have been received. *)
Theorem C18_progress : forall wbuf rbuf ms rounds,
  Forall (fits (length wbuf) (length rbuf)) ms -> Forall fair_round rounds ->
  2 * length (concat (map frame ms)) + 2 * length ms <= length rounds ->
  exists s, crun (concat rounds) (cstart wbuf rbuf ms) = Some s /\ r_got s = ms.
Proof.
  intros wbuf rbuf ms rounds F Fr L.
  pose proof (cstart_inv wbuf rbuf ms F) as K.
  assert (work (cstart wbuf rbuf ms) ms [] <= length rounds) as W.
  { unfold work. cbn [cstart w_todo c_net length]. lia. }
  assert (forall l1 l2 s, crun (l1 ++ l2) s = match crun l1 s with Some s' => crun l2 s' | None => None end) as App.
  { induction l1 as [|v l1 IH]; intros l2 s; cbn [app crun]; [reflexivity|]. destruct (cstep v s); auto. }
  clear L. revert W K. generalize (cstart wbuf rbuf ms).
  cut (forall rest c pend s, work s rest pend <= length rounds ->
         cinv (length wbuf) (length rbuf) ms s rest c pend ->
         exists s', crun (concat rounds) s = Some s' /\ r_got s' = ms).
  { intros H s. apply H. }
  induction rounds as [|l rounds IH]; intros rest c pend s W K.
  - cbn [concat crun]. exists s. split; [reflexivity|]. cbn [length] in W.
    destruct rest; [|unfold work in W; cbn [length] in W; lia].
    rewrite (ci_ms _ _ _ _ _ _ _ K). now rewrite app_nil_r.
  - inversion Fr as [|? ? (F1 & F2 & F3 & F4) Fr']; subst. cbn [concat]. rewrite App.
    destruct (round_works _ _ ms l s rest c pend K) as (s1 & r1 & c1 & p1 & E & K1 & [Wk|(Sm & A1 & A2 & A3 & A4)]); rewrite E.
    + eapply (IH Fr' r1 c1 p1 s1); [cbn [length] in W; lia|exact K1].
    + assert (rest = []) as Er.
      { specialize (A1 F1). specialize (A2 F2 A1). specialize (A4 F4).
        destruct (A3 F3) as [Nn|(m & D)]; [|congruence].
        pose proof (head_frame _ _ _ _ _ _ _ K) as H. destruct rest as [|m rest]; [reflexivity|exfalso].
        destruct H as (Fm & f & El & Eq). rewrite A2, Nn, A1 in Eq. cbn in Eq.
        symmetry in Eq. apply app_eq_nil in Eq as [-> _].
        rewrite (frame_status m c []) in A4 by (apply Fm || exact El). discriminate. }
      destruct Sm as (En & Et & -> & -> & ->). subst rest.
      eapply (IH Fr' [] c pend s1); [|exact K1].
      assert (work s1 [] pend = 0) as ->; [|lia].
      pose proof (head_frame _ _ _ _ _ _ _ K1) as (_ & H2 & -> & H4).
      unfold work. rewrite H2, H4. reflexivity.
Qed.
Print Assumptions C18_progress.

Example C18_stream_nonvacuous :
  let ms := [[x01; x02]; []; [x03]] in
  let round := [CRead (Give 3); CWrite (WFail KWouldBlock); CNext; CWrite (Accept 2); CRead (RFail KOther); CTake] in
  Forall (fits 2 2) ms /\ fair_round round /\
  option_map r_got (crun (concat (repeat round 25)) (cstart (zeros 2) (zeros 2) ms)) = Some ms.
Proof.
  split; [repeat constructor; cbn; lia|]. split; [|vm_compute; reflexivity].
  unfold fair_round. cbn. repeat split; eauto 10.
Qed.

(** * C52 *)

(** Everything a user can call on an encoder, with arbitrary arguments.  [EStore] overwrites the buffer
    through [buffer_bytes_mut], which cannot change its length. *)
Inductive eop :=
| ESetLen (n : N) | ESetPos (p : nat) | ESetHeaderOff (p : nat) | ESetMsgOff (p : nat) | EAdvance (p : nat)
| ESetLenPos (n : N) (p : nat) | ERestart | ERestartWith (n : N) | EClear | EWrite (v : wr_ev)
| EStore (off : nat) (data : bytes).
Definition eapply_op (o : eop) (e : enc) : enc * res enc_err unit :=
  match o with
  | ESetLen n => set_message_len n e
  | ESetPos p => set_writing_position p e
  | ESetHeaderOff p => set_header_offset p e
  | ESetMsgOff p => set_message_offset p e
  | EAdvance p => enc_advance p e
  | ESetLenPos n p => set_msg_len_and_position n p e
  | ERestart => restart_write e
  | ERestartWith n => restart_with n e
  | EClear => enc_clear e
  | EWrite v => let '(e, _, r) := write_to_stdio e v in
                (e, match r with Ok _ => Ok tt | Err x => Err x | Panic => Panic end)
  | EStore off data =>
      if off + length data <=? length (e_buf e)
      then ({| e_buf := splice off data (e_buf e); e_header := e_header e; e_pos := e_pos e |}, Ok tt)
      else (e, Ok tt)
  end.
Fixpoint eapply_ops (os : list eop) (e : enc) : enc * list (res enc_err unit) :=
  match os with
  | [] => (e, [])
  | o :: os => let '(e1, r) := eapply_op o e in let '(e2, rs) := eapply_ops os e1 in (e2, r :: rs)
  end.

Definition sane (e : enc) : Prop := eok e (skipn (e_pos e) (wire_of e)).
Lemma sane_eok e p : eok e p -> sane e.
Proof. intros K. pose proof (ek_w _ _ K) as W. unfold sane. now rewrite <- W. Qed.
Lemma sane_intro e : length (e_header e) = 8 -> (message_len e <= N.of_nat (length (e_buf e)))%N ->
  e_pos e <= 8 + N.to_nat (message_len e) -> sane e.
Proof. intros. constructor; auto. Qed.

Lemma set_pos_sane p e : sane e -> sane (fst (set_writing_position p e)) /\ snd (set_writing_position p e) <> Panic /\
  length (e_buf (fst (set_writing_position p e))) = length (e_buf e) /\
  ((p - 8 <= N.to_nat (message_len e)) -> snd (set_writing_position p e) = Ok tt).
Proof.
  intros K. unfold set_writing_position, pos_in_buf, pos_in_msg, e_moff, HEADER_SIZE, message_len.
  cbn [e_buf e_header e_pos]. pose proof (ek_l _ _ K) as L. unfold message_len in L.
  destruct (Nat.leb_spec (p - 8) (length (e_buf e))) as [A|A]; cbn [negb fst snd].
  2:{ split; [exact K|]. split; [discriminate|]. split; [reflexivity|]. intros; lia. }
  destruct (N.leb_spec (N.of_nat (p - 8)) (le_dec (e_header e))) as [B|B]; cbn [negb fst snd].
  - split; [|repeat split; try discriminate].
    apply sane_intro; unfold message_len; cbn [e_buf e_header e_pos]; [apply (ek_h _ _ K)|exact L|lia].
  - split; [exact K|]. split; [discriminate|]. split; [reflexivity|]. intros; lia.
Qed.
Lemma unwrapped_snd {A} (r : enc * res enc_err A) : snd r <> Panic -> (exists a, snd r = Ok a) -> snd (unwrapped r) <> Panic.
Proof. intros _ (a & E). destruct r as [e x]. cbn in *. subst. discriminate. Qed.
Lemma unwrapped_fst {A} (r : enc * res enc_err A) : fst (unwrapped r) = fst r.
Proof. now destruct r as [e [| |]]. Qed.

Lemma set_len_sane n e : sane e -> sane (fst (set_message_len n e)) /\ snd (set_message_len n e) <> Panic /\
  length (e_buf (fst (set_message_len n e))) = length (e_buf e).
Proof.
  intros K. unfold set_message_len, set_header, msg_in_buf, pos_in_msg, e_moff, HEADER_SIZE, message_len.
  cbn [e_buf e_header e_pos].
  destruct (N.leb_spec (le_dec (le_enc 8 n)) (N.of_nat (length (e_buf e)))) as [A|A]; cbn [negb fst snd].
  2:{ split; [exact K|]. split; [discriminate|reflexivity]. }
  destruct (N.leb_spec (N.of_nat (e_pos e - 8)) (le_dec (le_enc 8 n))) as [B|B]; cbn [negb fst snd].
  - split; [|split; [discriminate|reflexivity]].
    apply sane_intro; unfold message_len; cbn [e_buf e_header e_pos]; [apply le_enc_length|exact A|lia].
  - split; [exact K|]. split; [discriminate|reflexivity].
Qed.
Lemma reset_sane e : sane e -> sane {| e_buf := e_buf e; e_header := e_header e; e_pos := 0 |}.
Proof.
  intros K. apply sane_intro; unfold message_len; cbn [e_buf e_header e_pos];
    [apply (ek_h _ _ K)|apply (ek_l _ _ K)|lia].
Qed.
Lemma set_len_pos_sane n p e : sane e -> sane (fst (set_msg_len_and_position n p e)) /\
  snd (set_msg_len_and_position n p e) <> Panic /\
  length (e_buf (fst (set_msg_len_and_position n p e))) = length (e_buf e) /\
  (p <= 8 -> snd (set_msg_len_and_position n p e) <> Err PosOutOfBuffer) /\
  (n = 0%N -> p <= 8 -> snd (set_msg_len_and_position n p e) = Ok tt).
Proof.
  intros K. unfold set_msg_len_and_position. pose proof (set_len_sane n _ (reset_sane _ K)) as (S1 & S2 & S3).
  destruct (set_message_len n _) as [e1 [[]|x|]] eqn:E; cbn [fst snd] in *.
  - pose proof (set_pos_sane p e1 S1) as (T1 & T2 & T3 & T4). cbn [e_buf] in S3.
    split; [exact T1|]. split; [exact T2|]. split; [congruence|].
    split; intros; rewrite T4 by lia; congruence.
  - split; [exact S1|]. split; [exact S2|]. split; [exact S3|].
    unfold set_message_len, set_header, msg_in_buf, pos_in_msg in E. cbn [e_buf e_header e_pos] in E.
    split.
    + intros _ H. injection H as ->. destruct (_ <=? _)%N in E; cbn [negb] in E; [|discriminate].
      destruct (_ <=? _)%N in E; cbn [negb] in E; discriminate.
    + intros -> _. exfalso. unfold message_len, e_moff in E. cbn [e_buf e_header e_pos] in E.
      change (le_dec (le_enc 8 0)) with 0%N in E. change (N.of_nat (0 - HEADER_SIZE)) with 0%N in E.
      rewrite !(proj2 (N.leb_le 0 _)) in E by lia. discriminate.
  - now destruct S2.
Qed.

Lemma eop_sane o e e' r : sane e -> eapply_op o e = (e', r) ->
  sane e' /\ r <> Panic /\ length (e_buf e') = length (e_buf e).
Proof.
  intros K E. destruct o; cbn [eapply_op] in E.
  - pose proof (set_len_sane n e K) as H. rewrite E in H. exact H.
  - pose proof (set_pos_sane p e K) as H. rewrite E in H. cbn [fst snd] in H. tauto.
  - unfold set_header_offset in E. destruct (Nat.leb_spec p HEADER_SIZE) as [L|L].
    + pose proof (set_pos_sane p e K) as (A & B & C & D). unfold HEADER_SIZE in L.
      destruct (set_writing_position p e) as [e1 r1]. cbn [fst snd] in *. rewrite (D ltac:(lia)) in E.
      injection E as <- <-. split; [exact A|]. split; [discriminate|exact C].
    + injection E as <- <-. split; [exact K|]. split; [discriminate|reflexivity].
  - pose proof (set_pos_sane (p + HEADER_SIZE) e K) as H. unfold set_message_offset in E. rewrite E in H. cbn [fst snd] in H. tauto.
  - pose proof (set_pos_sane (e_pos e + p) e K) as H. unfold enc_advance in E. rewrite E in H. cbn [fst snd] in H. tauto.
  - pose proof (set_len_pos_sane n p e K) as H. rewrite E in H. cbn [fst snd] in H. tauto.
  - unfold restart_write in E. pose proof (set_pos_sane 0 e K) as (A & B & C & D).
    destruct (set_writing_position 0 e) as [e1 r1]. cbn [fst snd] in *. rewrite (D ltac:(lia)) in E.
    injection E as <- <-. split; [exact A|]. split; [discriminate|exact C].
  - unfold restart_with in E. pose proof (set_len_pos_sane n 0 e K) as (A & B & C & D & _).
    destruct (set_msg_len_and_position n 0 e) as [e1 r1]. cbn [fst snd] in *. specialize (D ltac:(lia)).
    destruct r1 as [[]|x|]; [|destruct x|]; try congruence; injection E as <- <-; (split; [exact A|split; [discriminate|exact C]]).
  - unfold enc_clear in E. pose proof (set_len_pos_sane 0 0 e K) as (A & B & C & _ & D).
    destruct (set_msg_len_and_position 0 0 e) as [e1 r1]. cbn [fst snd] in *. rewrite (D eq_refl ltac:(lia)) in E.
    cbn [unwrapped] in E. unfold set_message_offset in E.
    pose proof (set_pos_sane (0 + HEADER_SIZE) e1 A) as (A' & B' & C' & D').
    destruct (set_writing_position (0 + HEADER_SIZE) e1) as [e2 r2]. cbn [fst snd] in *.
    rewrite D' in E by (unfold HEADER_SIZE; lia). injection E as <- <-.
    split; [exact A'|]. split; [discriminate|congruence].
  - destruct (write_ok e _ v K) as (W0 & W1).
    destruct (skipn (e_pos e) (wire_of e)) as [|b l] eqn:Ep.
    + rewrite (W0 eq_refl) in E. injection E as <- <-. split; [exact K|]. split; [discriminate|reflexivity].
    + specialize (W1 ltac:(discriminate)). destruct v as [k|k].
      * destruct W1 as (e1 & out & K1 & _ & _ & _ & Bf & W). rewrite W in E. injection E as <- <-.
        split; [eapply sane_eok, K1|]. split; [discriminate|]. now rewrite Bf.
      * rewrite W1 in E. injection E as <- <-. split; [exact K|]. split; [discriminate|reflexivity].
  - destruct (Nat.leb_spec (off + length data) (length (e_buf e))) as [L|L]; injection E as <- <-.
    + split; [|split; [discriminate|apply splice_length; lia]].
      apply sane_intro; unfold message_len; cbn [e_buf e_header e_pos];
        [apply (ek_h _ _ K)|rewrite splice_length by lia; apply (ek_l _ _ K)|apply (ek_p _ _ K)].
    + split; [exact K|]. split; [discriminate|reflexivity].
Qed.

(** No sequence of calls with whatever arguments makes an encoder panic, and it always knows what to send: the
    next slice exists. *)
Theorem C52_encoder_never_panics : forall buf os e rs,
  eapply_ops os (fst (from_buffer buf)) = (e, rs) ->
  ~ In Panic rs /\ exhausted e <> Panic /\ enc_message e <> Panic /\ length (e_buf e) = length buf.
Proof.
  intros buf os. rewrite from_buffer_ok. cbn [fst].
  assert (sane {| e_buf := buf; e_header := le_enc 8 0; e_pos := 8 |}) as K by apply (sane_eok _ _ (eok_idle buf)).
  change (length buf) with (length (e_buf {| e_buf := buf; e_header := le_enc 8 0; e_pos := 8 |})).
  revert K. generalize {| e_buf := buf; e_header := le_enc 8 0; e_pos := 8 |}.
  induction os as [|o os IH]; intros e0 K e rs E; cbn [eapply_ops] in E.
  - injection E as <- <-. split; [intros []|]. split; [rewrite (exhausted_ok _ _ K); discriminate|].
    split; [|reflexivity]. unfold enc_message. rewrite (proj2 (N.leb_le _ _)) by apply (ek_l _ _ K). discriminate.
  - destruct (eapply_op o e0) as [e1 r] eqn:Eo. destruct (eapply_ops os e1) as [e2 rs2] eqn:Es.
    injection E as <- <-. destruct (eop_sane o e0 e1 r K Eo) as (K1 & Nr & Lb).
    destruct (IH e1 K1 e2 rs2 Es) as (A & B & C & D). split; [|split; [exact B|split; [exact C|congruence]]].
    intros [->|H]; [now apply Nr|now apply A].
Qed.
Print Assumptions C52_encoder_never_panics.

Example C52_encoder_nonvacuous : exists e,
  eapply_ops [EStore 0 [x01; x02]; ERestartWith 2; EWrite (Accept 9); EAdvance 1; EAdvance 7; ESetLen 0; ESetLen 99; EClear]
    (fst (from_buffer (zeros 3)))
  = (e, [Ok tt; Ok tt; Ok tt; Ok tt; Err PosOutOfBuffer; Err PosOutOfMessage; Err MsgTooLarge; Ok tt]).
Proof. eexists. vm_compute. reflexivity. Qed.

(** The constructors of an encoder from a buffer and a length, and from a buffer, a length and a position: they succeed if
    the length fits into the buffer and the position is not behind the end of the message, where the 8 bytes of the length count.  The
    encoder then sends that length and that many bytes of the buffer, from that position on. *)
Theorem C52_encoder_from_parts : forall buf len pos, (N.of_nat (length buf) < 2 ^ 64)%N -> (len < 2 ^ 64)%N ->
  (forall e r, from_short_message buf len = (e, r) -> (r = Ok tt <-> (len <= N.of_nat (length buf))%N) /\ r <> Panic /\
     (r = Ok tt -> e_pos e = 0 /\ e_header e = le_enc 8 len /\ enc_message e = Ok (firstn (N.to_nat len) buf))) /\
  (forall e r, enc_from_parts buf len pos = (e, r) -> (r = Ok tt <-> (len <= N.of_nat (length buf) /\ N.of_nat pos <= 8 + len)%N) /\ r <> Panic /\
     (r = Ok tt -> e_pos e = pos /\ e_header e = le_enc 8 len /\ enc_message e = Ok (firstn (N.to_nat len) buf))).
Proof.
  intros buf len pos Lb Ll.
  assert (Set0 : forall h, set_message_len len {| e_buf := buf; e_header := h; e_pos := 0 |} =
    if (len <=? N.of_nat (length buf))%N then ({| e_buf := buf; e_header := le_enc 8 len; e_pos := 0 |}, Ok tt)
    else ({| e_buf := buf; e_header := h; e_pos := 0 |}, Err MsgTooLarge)).
  { intros h. unfold set_message_len, set_header, msg_in_buf, pos_in_msg, e_moff, HEADER_SIZE. cbn [e_buf e_header e_pos].
    rewrite message_len_enc by exact Ll. change (N.of_nat (0 - 8)) with 0%N.
    destruct (len <=? N.of_nat (length buf))%N; cbn [negb]; [|reflexivity]. now rewrite (proj2 (N.leb_le 0 len)) by lia. }
  assert (Msg : forall p, (len <= N.of_nat (length buf))%N -> enc_message {| e_buf := buf; e_header := le_enc 8 len; e_pos := p |} = Ok (firstn (N.to_nat len) buf)).
  { intros p L. unfold enc_message. cbn [e_buf]. rewrite message_len_enc by exact Ll. now rewrite (proj2 (N.leb_le _ _) L). }
  split; intros e r E.
  - unfold from_short_message in E. rewrite (proj1 (from_message_ok buf Lb)), Set0 in E.
    destruct (N.leb_spec len (N.of_nat (length buf))) as [L|L]; inversion E; subst; clear E.
    + split; [split; [intros _; exact L|reflexivity]|]. split; [discriminate|]. intros _. cbn [e_pos e_header]. split; [reflexivity|].
      split; [reflexivity|]. now apply Msg.
    + split; [split; [discriminate|lia]|]. split; discriminate.
  - unfold enc_from_parts in E. rewrite from_buffer_ok in E. unfold set_msg_len_and_position in E. cbn [e_buf e_header e_pos] in E. rewrite Set0 in E.
    destruct (N.leb_spec len (N.of_nat (length buf))) as [L|L].
    2: { inversion E; subst. split; [split; [discriminate|lia]|]. split; discriminate. }
    unfold set_writing_position, pos_in_buf, pos_in_msg, e_moff, HEADER_SIZE in E. cbn [e_buf e_header e_pos] in E. rewrite message_len_enc in E by exact Ll.
    destruct (Nat.leb_spec (pos - 8) (length buf)) as [A|A]; cbn [negb] in E.
    2: { inversion E; subst. split; [split; [discriminate|lia]|]. split; discriminate. }
    destruct (N.leb_spec (N.of_nat (pos - 8)) len) as [B|B]; cbn [negb] in E; inversion E; subst; clear E.
    + split; [split; [intros _; lia|reflexivity]|]. split; [discriminate|]. intros _. cbn [e_pos e_header]. split; [reflexivity|].
      split; [reflexivity|]. now apply Msg.
    + split; [split; [discriminate|lia]|]. split; discriminate.
Qed.
Print Assumptions C52_encoder_from_parts.

(** The decoder has the same kind of interface for callers that do the reading themselves:
    [next_slice_to_write_to], then [advance].  Its check is weaker: [advance] looks the header up
    before moving, so a step from inside the header to beyond the announced message is accepted,
    and the next look at the message panics. *)
Theorem C52_decoder_advance_refuted : exists buf count d,
  dec_advance count (dec_new buf) = (d, Ok tt) /\ dec_message d = Panic /\
  snd (read_from_stdio d (Give 1) [x00]) = Panic.
Proof. exists (zeros 8), 12. eexists. vm_compute. auto. Qed.
Print Assumptions C52_decoder_advance_refuted.

(** What does hold: after filling a part of the slice that was handed out, advancing by
    that amount succeeds and leaves a decoder in the state reading would have left it in. *)
Theorem C52_decoder_advance_partial : forall buf stream acts d left c w data,
  drive acts (dec_new buf) stream [] = (d, left, c) ->
  next_slot d = Ok (Some w) -> length data <= slot_len w ->
  exists d', dec_advance (length data) (fill d w data) = (d', Ok tt) /\
    read_from_stdio d (Give (length data)) (data ++ left) =
      (d', left, Ok (length data, match dec_message d' with Ok m => m | _ => None end)) /\
    dec_message d' <> Panic /\ next_slot d' <> Panic.
Proof.
  intros buf stream acts d left c w data E Ns Ld.
  destruct (drive_dok (length buf) acts _ _ _ _ _ _ (dok_new buf) E) as (K & _).
  pose proof (slot_ok _ _ _ K) as So. rewrite Ns in So.
  destruct (status_of (length buf) c) eqn:St; try discriminate. injection So as ->.
  assert (slot_len (slot_at c) = missing c) as Sl by (unfold slot_at; now destruct (length c <? 8)).
  rewrite Sl in Ld. destruct (filled _ _ _ data K St Ld) as (d' & A & K'). exists d'. split; [exact A|].
  pose proof (message_ok _ _ _ K') as M. split.
  - unfold read_from_stdio. rewrite Ns, Sl. rewrite Nat.min_l by exact Ld.
    assert (firstn (length data) (data ++ left) = data) as F
      by (rewrite firstn_app, Nat.sub_diag, firstn_all, firstn_O; apply app_nil_r).
    rewrite F, A. rewrite skipn_app, Nat.sub_diag, skipn_all. cbn [app skipn].
    rewrite M. now destruct (status_of _ (c ++ data)).
  - rewrite M, (slot_ok _ _ _ K'). destruct (status_of _ (c ++ data)); split; discriminate.
Qed.
Print Assumptions C52_decoder_advance_partial.

(** * C53 *)

(** A blocking read whose source ends early reports it.  Partial: the same for writing is false, see [C53_write_zero_refuted]. *)
Theorem C53_read_eof_partial : forall m buf l l' es d left r,
  (N.of_nat (length m) < 2 ^ 64)%N -> length m <= length buf -> frame m = l ++ l' -> l' <> [] ->
  forallb benign es = true -> length l < length (filter giving es) ->
  read_all es (dec_new buf) l = (d, left, r) -> r = Some (Err (RIo KUnexpectedEof)) /\ left = [].
Proof.
  intros m buf l l' es d left r B L E Nl Hb Hl R.
  cut (forall es d0 c l d left r, dok (length buf) d0 c -> frame m = c ++ l ++ l' ->
         forallb benign es = true -> length l < length (filter giving es) ->
         read_all es d0 l = (d, left, r) -> r = Some (Err (RIo KUnexpectedEof)) /\ left = []).
  { intros H. exact (H es (dec_new buf) [] l d left r (dok_new buf) E Hb Hl R). }
  clear es d left r l E Hb Hl R.
  induction es as [|e es IH]; intros d0 c l d left r K E Hb Hl R; [cbn in Hl; lia|].
  cbn [forallb] in Hb. apply andb_true_iff in Hb as [Hv Hb]. cbn [read_all] in R.
  pose proof (frame_status m c (l ++ l') (length buf) B L E) as St.
  assert (status_of (length buf) c = Need) as St'
    by (rewrite St; destruct (l ++ l') eqn:Z; [apply app_eq_nil in Z as [_ ?]; congruence|reflexivity]).
  pose proof (read_ok _ d0 c e l K) as Rd. rewrite St' in Rd. destruct e as [k|k].
  - destruct k as [|k]; [discriminate|]. cbn zeta in Rd. destruct Rd as (d' & K' & Rd). rewrite Rd in R.
    pose proof (need_missing _ _ _ K St') as Pm.
    set (data := firstn (Nat.min (S k) (missing c)) l) in *.
    assert (l = data ++ skipn (length data) l) as Sp.
    { rewrite <- (firstn_skipn (length data) l) at 1. f_equal. apply firstn_len. }
    assert (frame m = (c ++ data) ++ skipn (length data) l ++ l') as E2.
    { rewrite E. rewrite Sp at 1. now rewrite <- !app_assoc. }
    rewrite (frame_status m (c ++ data) _ _ B L E2) in R.
    destruct (skipn (length data) l ++ l') eqn:Z; [apply app_eq_nil in Z as [_ ?]; congruence|].
    assert (length data = Nat.min (Nat.min (S k) (missing c)) (length l)) as Ld by (unfold data; apply firstn_length).
    destruct (length data) as [|ld] eqn:Le.
    + injection R as <- <- <-. split; [reflexivity|].
      destruct l; [now destruct (length data)|]. cbn [length] in Ld. lia.
    + rewrite <- Le in *. eapply (IH d' (c ++ data) (skipn (length data) l)); eauto.
      * rewrite Z. exact E2.
      * rewrite skipn_length. cbn [filter giving length] in Hl. lia.
  - destruct k; try discriminate. rewrite Rd in R. eapply IH; eauto.
Qed.
Print Assumptions C53_read_eof_partial.

Example C53_nonvacuous : exists d,
  read_all [Give 3; Give 100; Give 1; Give 100] (dec_new (zeros 2)) (le_enc 8 2 ++ [x01])
    = (d, [], Some (Err (RIo KUnexpectedEof))).
Proof. eexists. vm_compute. reflexivity. Qed.

(** Errors of the source end a blocking read at once: whatever has been read before, the call returns the error itself
    and takes nothing more; a message that is announced to be longer than the buffer ends it, too.  Interruptions do not. *)
Lemma read_all_running n es : forall d c l d' left, dok n d c -> (forall m, status_of n c <> Done m) ->
  read_all es d l = (d', left, None) ->
  exists c', l = c' ++ left /\ dok n d' (c ++ c') /\ (forall m, status_of n (c ++ c') <> Done m) /\
    forall es', read_all (es ++ es') d l = read_all es' d' left.
Proof.
  induction es as [|e es IH]; intros d c l d' left K N R; cbn [read_all] in R.
  - injection R as <- <-. exists []. rewrite app_nil_r. repeat (split; [assumption || reflexivity|]). reflexivity.
  - pose proof (read_ok n d c e l K) as Rd. destruct (status_of n c) as [| |m] eqn:St; [| |now elim (N m)].
    + destruct e as [k|k].
      * cbn zeta in Rd. set (data := firstn (Nat.min k (missing c)) l) in *. destruct Rd as (d1 & K1 & Rd). rewrite Rd in R.
        assert (l = data ++ skipn (length data) l) as Sp.
        { rewrite <- (firstn_skipn (length data) l) at 1. f_equal. apply firstn_len. }
        assert (forall m, status_of n (c ++ data) <> Done m) as N1 by (intros m St1; rewrite St1 in R; now destruct (length data)).
        destruct (length data) as [|ld] eqn:Le; [destruct (status_of n (c ++ data)); discriminate R|]. rewrite <- Le in R, Sp.
        assert (read_all es d1 (skipn (length data) l) = (d', left, None)) as R'
          by (destruct (status_of n (c ++ data)) as [| |m]; [exact R|exact R|now elim (N1 m)]).
        destruct (IH d1 (c ++ data) _ _ _ K1 N1 R') as (c' & El & K' & N' & X).
        exists (data ++ c'). rewrite app_assoc. split; [rewrite Sp, El at 1; apply app_assoc|]. split; [exact K'|]. split; [exact N'|].
        intros es'. cbn [List.app read_all]. rewrite Rd. rewrite <- Le. destruct (status_of n (c ++ data)) as [| |m]; [apply X|apply X|now elim (N1 m)].
      * rewrite Rd in R. destruct k; try discriminate R. destruct (IH d c l d' left K ltac:(rewrite St; discriminate) R) as (c' & El & K' & N' & X).
        exists c'. repeat (split; [assumption|]). intros es'. cbn [List.app read_all]. rewrite Rd. apply X.
    + rewrite Rd in R. discriminate R.
Qed.
Theorem C53_read_error : forall buf src es d left es', read_all es (dec_new buf) src = (d, left, None) ->
  exists c, src = c ++ left /\
  (8 <= length c -> (N.of_nat (length buf) < le_dec (firstn 8 src))%N -> forall e,
     read_all (es ++ e :: es') (dec_new buf) src = (d, left, Some (Err TooLarge))) /\
  (length c < 8 \/ (le_dec (firstn 8 src) <= N.of_nat (length buf))%N ->
     (forall k, k <> KInterrupted -> read_all (es ++ RFail k :: es') (dec_new buf) src = (d, left, Some (Err (RIo k)))) /\
     read_all (es ++ [RFail KInterrupted]) (dec_new buf) src = (d, left, None)).
Proof.
  intros buf src es d left es' R.
  destruct (read_all_running (length buf) es (dec_new buf) [] src d left (dok_new buf) ltac:(discriminate) R) as (c & El & K & N & X).
  cbn [List.app] in *. exists c. split; [exact El|].
  pose proof (fun e => read_ok (length buf) d c e left K) as Rd.
  assert (8 <= length c -> firstn 8 src = firstn 8 c) as F8.
  { intros H. rewrite El, firstn_app. replace (8 - length c) with 0 by lia. now rewrite firstn_O, app_nil_r. }
  split.
  - intros L B e. rewrite X. specialize (Rd e). rewrite (F8 L) in B.
    assert (status_of (length buf) c = Big) as St.
    { unfold status_of, announced. rewrite (proj2 (Nat.ltb_ge _ _) L), (proj2 (N.ltb_lt _ _) B). reflexivity. }
    rewrite St in Rd. cbn [read_all]. now rewrite Rd.
  - intros H. assert (status_of (length buf) c = Need) as St.
    { pose proof (N (skipn 8 c)) as Nd. unfold status_of, announced in *. destruct (Nat.ltb_spec (length c) 8) as [|L]; [reflexivity|].
      destruct H as [H|H]; [lia|]. rewrite (F8 L) in H. rewrite (proj2 (N.ltb_ge _ _) H) in *.
      destruct (_ =? _)%N; [now elim Nd|reflexivity]. }
    split.
    + intros k Nk. rewrite X. specialize (Rd (RFail k)). rewrite St in Rd. cbn [read_all]. rewrite Rd. now destruct k.
    + rewrite X. specialize (Rd (RFail KInterrupted)). rewrite St in Rd. cbn [read_all]. now rewrite Rd.
Qed.
Print Assumptions C53_read_error.
Example C53_read_error_case : exists d d',
  read_all [Give 3; RFail KInterrupted; Give 100] (dec_new (zeros 2)) (le_enc 8 2 ++ [x01]) = (d, [x01], None) /\
  read_all [Give 3; RFail KInterrupted; Give 100; RFail KOther] (dec_new (zeros 2)) (le_enc 8 2 ++ [x01]) = (d, [x01], Some (Err (RIo KOther))) /\
  read_all [Give 100] (dec_new (zeros 2)) (le_enc 8 3 ++ [x01]) = (d', [x01], None) /\
  read_all [Give 100; Give 100] (dec_new (zeros 2)) (le_enc 8 3 ++ [x01]) = (d', [x01], Some (Err TooLarge)).
Proof. do 2 eexists. repeat split; vm_compute; reflexivity. Qed.

(** Errors of the sink end a blocking write at once, and nothing more is written. *)
Theorem C53_write_error : forall m e vs e' out vs', (N.of_nat (length m) < 2 ^ 64)%N -> from_message m = (e, Ok tt) ->
  write_all vs e = (e', out, None) ->
  (forall k, k <> KInterrupted -> write_all (vs ++ WFail k :: vs') e = (e', out, Some (Err (EIo k)))) /\
  write_all (vs ++ [WFail KInterrupted]) e = (e', out, None).
Proof.
  intros m e vs e' out vs' B F. destruct (from_message_ok m B) as (F' & K).
  rewrite F in F'. apply (f_equal fst) in F'. cbn [fst] in F'. rewrite <- F' in K. clear F F'.
  assert (frame m <> []) as Ne.
  { intros Z. apply (f_equal (@length byte)) in Z. rewrite frame_length in Z. cbn in Z. lia. }
  revert Ne K. generalize (frame m). intros pend Ne K R.
  cut (exists p', p' <> [] /\ eok e' p' /\ forall us, write_all (vs ++ us) e = let '(e2, o2, r) := write_all us e' in (e2, out ++ o2, r)).
  { intros (p' & Np & K' & X). split.
    - intros k Nk. rewrite X. cbn [write_all]. destruct (write_ok e' p' (WFail k) K') as (_ & W1). rewrite (W1 Np).
      destruct k; try congruence; now rewrite app_nil_r.
    - rewrite X. cbn [write_all]. destruct (write_ok e' p' (WFail KInterrupted) K') as (_ & W1). rewrite (W1 Np). cbn [write_all List.app]. now rewrite app_nil_r. }
  revert e pend e' out Ne K R. induction vs as [|v vs IH]; intros e pend e' out Ne K R; cbn [write_all] in R.
  - injection R as <- <-. exists pend. repeat (split; [assumption|]). intros us. cbn [List.app]. now destruct (write_all us e) as [[? ?] ?].
  - destruct (write_ok e pend v K) as (_ & W1). specialize (W1 Ne). destruct v as [k|k].
    + destruct W1 as (e2 & o & K2 & Eo & _ & _ & _ & W). rewrite W in R. destruct (skipn (length o) pend) as [|b2 p2] eqn:Sk; [discriminate R|].
      destruct (write_all vs e2) as [[e3 o3] r3] eqn:W3. injection R as <- <- ->.
      destruct (IH e2 (b2 :: p2) e3 o3 ltac:(discriminate) K2 W3) as (p' & Np & K' & X).
      exists p'. repeat (split; [assumption|]). intros us. cbn [List.app write_all]. rewrite W, X.
      destruct (write_all us e3) as [[e4 o4] r4]. now rewrite app_assoc.
    + rewrite W1 in R. destruct k; try discriminate R. destruct (write_all vs e) as [[e3 o3] r3] eqn:W3. injection R as <- <- ->.
      destruct (IH e pend e3 o3 Ne K W3) as (p' & Np & K' & X).
      exists p'. repeat (split; [assumption|]). intros us. cbn [List.app write_all]. rewrite W1, X. now destruct (write_all us e3) as [[e4 o4] r4].
Qed.
Print Assumptions C53_write_error.
Example C53_write_error_case : exists e e', from_message [x01; x02] = (e, Ok tt) /\
  write_all [Accept 5; WFail KInterrupted; Accept 0] e = (e', firstn 5 (frame [x01; x02]), None) /\
  write_all [Accept 5; WFail KInterrupted; Accept 0; WFail KOther; Accept 9] e = (e', firstn 5 (frame [x01; x02]), Some (Err (EIo KOther))).
Proof. do 2 eexists. repeat split; vm_compute; reflexivity. Qed.

(** A blocking write to a writer that accepts nothing (a full fixed-size buffer, for example, returns
    [Ok(0)]) never returns: whatever the number of attempts, the loop goes on. *)
Theorem C53_write_zero_refuted : forall m e,
  (N.of_nat (length m) < 2 ^ 64)%N -> from_message m = (e, Ok tt) ->
  forall n, exists e', write_all (repeat (Accept 0) n) e = (e', [], None).
Proof.
  intros m e B F n. destruct (from_message_ok m B) as (F' & K).
  rewrite F in F'. apply (f_equal fst) in F'. cbn [fst] in F'. rewrite <- F' in K. clear F F'.
  assert (frame m <> []) as Ne.
  { intros Z. apply (f_equal (@length byte)) in Z. rewrite frame_length in Z. cbn in Z. lia. }
  revert Ne K. generalize (frame m). intros pend Ne. revert e.
  induction n as [|n IH]; intros e K; cbn [repeat write_all].
  - exists e. reflexivity.
  - destruct (write_ok e pend (Accept 0) K) as (_ & W1). specialize (W1 Ne).
    destruct W1 as (e' & out & K' & _ & L0 & _ & _ & W). rewrite W.
    destruct out; [|cbn in L0; lia]. cbn [length skipn] in *. destruct pend as [|p0 pend]; [congruence|].
    destruct (IH e' K') as (e2 & E2). rewrite E2. exists e2. reflexivity.
Qed.
Print Assumptions C53_write_zero_refuted.
