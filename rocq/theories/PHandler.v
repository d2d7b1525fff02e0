(** C114: many clients at the broker's socket. *)
From Verif Require Import Base Wire Lpe PLpe Broker PBroker Handler.

(** * Specification *)

Section Spec.
Context (utf8 : bytes -> bool) {St E : Type} (inner : bconfig -> St -> St * option E) (conv : E -> psk_err).

(** The requests [l], each with the number of its connection, are handled one after the other: for a valid one the inner broker is asked for
    the key that it names, and its result is the reply; one that is not valid has no effect and no reply. *)
Inductive served : St -> list (nat * bytes) -> list (nat * bytes) -> St -> Prop :=
| served_nil s : served s [] [] s
| served_valid s i m c rest s1 r l out s2 :
    typed c -> utf8 (g_iface c) = true -> length (g_iface c) < 256 -> length m = 324 -> firstn 1 m = [x01] ->
    skipn 4 m = g_psk c ++ g_peer c ++ le_enc 1 (N.of_nat (length (g_iface c))) ++ g_iface c ++ rest ->
    inner (asked c) s = (s1, r) -> served s1 l out s2 ->
    served s ((i, m) :: l) ((i, response (option_map conv r)) :: out) s2
| served_invalid s i m l out s2 : ~ valid utf8 m -> served s l out s2 -> served s ((i, m) :: l) out s2.

(** The requests or replies of one connection *)
Definition of_conn (i : nat) (l : list (nat * bytes)) : list bytes := map snd (filter (fun x => Nat.eqb (fst x) i) l).
(** Messages on the wire, one after the other *)
Definition frames (l : list bytes) : bytes := concat (map frame l).
(** What a client has written to its connection *)
Definition sent (i : nat) (h : list hev) : bytes :=
  concat (map (fun e => match e with ESend j d => if Nat.eqb j i then d else [] | _ => [] end) h).
(** What a client has been sent *)
Definition received (i : nat) (st : handler_st St) : bytes := match nth_error (h_conns st) i with Some c => c_out c | None => [] end.
(** The handler has closed a connection. *)
Definition closed (i : nat) (st : handler_st St) : Prop := exists c, nth_error (h_conns st) i = Some c /\ c_task c = TEnded.
(** Bytes that do not begin with a complete request *)
Definition unfinished (r : bytes) : Prop := forall m rest, length m <= 324 -> r <> frame m ++ rest.
(** A request that is too long is announced. *)
Definition too_long (r : bytes) : Prop := 8 <= length r /\ (324 < le_dec (firstn 8 r))%N.

(** The requests handled so far are [l], in this order, and the replies are [out]: of each client the first requests it has written, and
    to each client its own replies in the order of its requests, of which at most one is not written completely. *)
Definition in_order (s0 : St) (h : list hev) (st : handler_st St) (l out : list (nat * bytes)) : Prop :=
  served s0 l out (h_inner st) /\
  forall i, (exists rest, sent i h = frames (of_conn i l) ++ rest) /\
            (exists later, frames (of_conn i out) = received i st ++ later /\ length later <= 13).

(** The steps of the handler and of the privileged process *)
Definition internal (e : hev) : Prop := match e with ETask _ _ | EBroker | EPriv => True | _ => False end.
(** Steps of theirs that change something *)
Inductive moves : handler_st St -> list hev -> handler_st St -> Prop :=
| moves_nil st : moves st [] st
| moves_cons st e l st' : internal e -> hstep utf8 inner conv st e <> st -> moves (hstep utf8 inner conv st e) l st' -> moves st (e :: l) st'.
(** All of them wait for a client. *)
Definition quiet (st : handler_st St) : Prop := forall e, internal e -> hstep utf8 inner conv st e = st.
End Spec.

(** * Lists and frames *)

Lemma nth_set {A} i (x : A) l j : i < length l -> nth_error (set_nth i x l) j = if Nat.eqb j i then Some x else nth_error l j.
Proof.
  revert i j. induction l as [|y l IH]; intros [|i] [|j] L; cbn [length set_nth nth_error Nat.eqb] in *; try lia; try reflexivity.
  apply IH. lia.
Qed.
Lemma nth_lt {A} (l : list A) i x : nth_error l i = Some x -> i < length l.
Proof. intros H. apply nth_error_Some. congruence. Qed.
Lemma set_same {A} i (x : A) l : nth_error l i = Some x -> set_nth i x l = l.
Proof. revert i. induction l as [|y l IH]; intros [|i] H; cbn in *; try discriminate; [congruence|]. now rewrite IH. Qed.

Lemma of_conn_app i a b : of_conn i (a ++ b) = of_conn i a ++ of_conn i b.
Proof. unfold of_conn. now rewrite filter_app, map_app. Qed.
Lemma of_conn_one i j m : of_conn i [(j, m)] = if Nat.eqb j i then [m] else [].
Proof. unfold of_conn. cbn [filter fst]. destruct (Nat.eqb j i); reflexivity. Qed.
Lemma of_conn_in i m l : In (i, m) l <-> In m (of_conn i l).
Proof.
  unfold of_conn. rewrite in_map_iff. split.
  - intros H. exists (i, m). split; [reflexivity|]. apply filter_In. split; [exact H|]. cbn [fst]. apply Nat.eqb_refl.
  - intros ((j, x) & Ex & H). apply filter_In in H. destruct H as [H Ej]. cbn [fst snd] in *. apply Nat.eqb_eq in Ej. congruence.
Qed.
Lemma frames_app a b : frames (a ++ b) = frames a ++ frames b.
Proof. unfold frames. now rewrite map_app, concat_app. Qed.
Lemma frames_one m : frames [m] = frame m.
Proof. unfold frames. cbn [map concat]. apply app_nil_r. Qed.
Lemma frames_cons m l : frames (m :: l) = frame m ++ frames l.
Proof. reflexivity. Qed.
Lemma sent_app i a b : sent i (a ++ b) = sent i a ++ sent i b.
Proof. unfold sent. now rewrite map_app, concat_app. Qed.
Lemma sent_one i e : sent i [e] = match e with ESend j d => if Nat.eqb j i then d else [] | _ => [] end.
Proof. unfold sent. cbn [map concat]. apply app_nil_r. Qed.

Lemma accept_none r : accept_request r = None <-> unfinished r.
Proof.
  split.
  - intros H m rest L ->. rewrite C40_anyone_refuted in H by exact L. discriminate.
  - intros U. destruct (accept_request r) as [[m rest]|] eqn:A; [|reflexivity].
    apply C40_requests_read in A. destruct A as [L A]. destruct (U m rest L A).
Qed.
Lemma too_long_spec r : (Nat.leb 8 (length r) && N.ltb (N.of_nat REQUEST_MSG_BUFFER_SIZE) (le_dec (firstn 8 r)))%bool = true <-> too_long r.
Proof.
  unfold too_long. rewrite andb_true_iff, Nat.leb_le, N.ltb_lt. change (N.of_nat REQUEST_MSG_BUFFER_SIZE) with 324%N. tauto.
Qed.
Lemma too_long_app r d : too_long r -> too_long (r ++ d).
Proof.
  intros [L H]. split; [rewrite app_length; lia|]. rewrite firstn_app. replace (8 - length r) with 0 by lia. cbn [firstn]. now rewrite app_nil_r.
Qed.
Lemma too_long_unfinished r : too_long r -> unfinished r.
Proof.
  intros [L H] m rest Lm ->. revert H. unfold frame. rewrite <- app_assoc, firstn_app, firstn_all2, le_enc_length by (rewrite le_enc_length; lia).
  cbn [Nat.sub firstn]. rewrite app_nil_r, le_dec_enc, N.mod_small by (change (pow256 8) with 18446744073709551616%N; lia). lia.
Qed.
(** Messages are found again. *)
Lemma frames_prefix a : forall b r p, Forall (fun m => length m <= 324) a -> Forall (fun m => length m <= 324) b ->
  frames a ++ p = frames b ++ r -> unfinished p -> unfinished r -> a = b /\ p = r.
Proof.
  induction a as [|x a IH]; intros [|y b] r p Fa Fb Eq Up Ur.
  - split; [reflexivity|exact Eq].
  - inversion Fb; subst. cbn [List.app] in Eq. change (frames [] ++ p) with p in Eq. rewrite frames_cons, <- app_assoc in Eq. edestruct Up; eauto.
  - inversion Fa; subst. change (frames [] ++ r) with r in Eq. rewrite frames_cons, <- app_assoc in Eq. symmetry in Eq. edestruct Ur; eauto.
  - inversion Fa; subst. inversion Fb; subst. rewrite !frames_cons, <- !app_assoc in Eq. apply frame_inj in Eq; [|lia|lia].
    destruct Eq as [-> Eq]. destruct (IH b r p) as [-> ->]; auto.
Qed.
(** The requests handled are the first of those written. *)
Lemma frames_le a : forall b r p, Forall (fun m => length m <= 324) a -> Forall (fun m => length m <= 324) b ->
  frames a ++ p = frames b ++ r -> unfinished p -> exists c, a = b ++ c.
Proof.
  induction a as [|x a IH]; intros [|y b] r p Fa Fb Eq Up.
  - exists []. reflexivity.
  - inversion Fb; subst. change (frames [] ++ p) with p in Eq. rewrite frames_cons, <- app_assoc in Eq. edestruct Up; eauto.
  - exists (x :: a). reflexivity.
  - inversion Fa; subst. inversion Fb; subst. rewrite !frames_cons, <- !app_assoc in Eq. apply frame_inj in Eq; [|lia|lia].
    destruct Eq as [-> Eq]. destruct (IH b r p) as [c ->]; auto. exists c. reflexivity.
Qed.
Lemma frame_split m rest : length m <= 324 ->
  firstn 8 (frame m ++ rest) = le_enc 8 (N.of_nat (length m)) /\ skipn 8 (frame m ++ rest) = m ++ rest /\
  le_dec (le_enc 8 (N.of_nat (length m))) = N.of_nat (length m).
Proof.
  intros L. unfold frame. split; [|split].
  - rewrite <- app_assoc, firstn_app, firstn_all2, le_enc_length by (rewrite le_enc_length; lia). cbn [Nat.sub firstn]. apply app_nil_r.
  - rewrite <- app_assoc, skipn_app, skipn_all2, le_enc_length by (rewrite le_enc_length; lia). reflexivity.
  - rewrite le_dec_enc, N.mod_small by (change (pow256 8) with 18446744073709551616%N; lia). reflexivity.
Qed.

Section Handler.
Context (utf8 : bytes -> bool) {St E : Type} (inner : bconfig -> St -> St * option E) (conv : E -> psk_err).
Notation hst := (handler_st St).
Notation served := (served utf8 inner conv).
Notation step := (hstep utf8 inner conv).
Notation hist := (hhist utf8 inner conv).

Lemma served_app s l out s1 l2 out2 s2 : served s l out s1 -> served s1 l2 out2 s2 -> served s (l ++ l2) (out ++ out2) s2.
Proof. intros A B. induction A; cbn [List.app]; [exact B| |]; econstructor; eauto. Qed.

(** One request of the privileged process *)
Lemma priv_one i m s : exists s' o, priv_step utf8 inner conv m s = (s', o) /\
  ((valid utf8 m /\ exists r, o = Some (frame (response r)) /\ served s [(i, m)] [(i, response r)] s') \/
   (~ valid utf8 m /\ o = None /\ served s [(i, m)] [] s')).
Proof.
  unfold priv_step. destruct (handle_message utf8 inner conv m (zeros RESPONSE_MSG_BUFFER_SIZE) s) as [[s' res] o] eqn:H.
  destruct (C38_only_valid utf8 inner conv m (zeros RESPONSE_MSG_BUFFER_SIZE) s eq_refl) as [A B].
  assert (V : valid utf8 m \/ ~ valid utf8 m).
  { clear - utf8. destruct (Nat.eq_dec (length m) 324) as [L|L]; [|right; intros (c & rest & _ & _ & _ & L' & _); congruence].
    destruct (list_eq_dec Byte.byte_eq_dec (firstn 1 m) [x01]) as [F|F]; [|right; intros (c & rest & _ & _ & _ & _ & F' & _); congruence].
    destruct (has_fields m L) as (c & rest & T & Li & Ei & Sk). destruct (utf8 (iface_bin m)) eqn:U.
    - left. exists c, rest. rewrite Ei. repeat split; auto; try apply T. rewrite <- Ei. exact Li. rewrite <- Ei. exact Sk.
    - right. intros (c' & rest' & T' & U' & L' & _ & _ & Sk'). destruct (fields _ _ _ T' L' L Sk') as (X & _). congruence. }
  destruct V as [V|V].
  - pose proof V as (c & rest & T & U & L & Lm & F1 & Sk). clear A B.
    rewrite (handle_valid utf8 inner conv m c rest) in H by (auto; reflexivity).
    assert (s' = fst (inner (asked c) s)) by congruence. assert (res = response (option_map conv (snd (inner (asked c) s)))) by congruence.
    assert (o = Some 5) by congruence. subst. eexists _, _. split; [reflexivity|]. left. split; [exact V|].
    exists (option_map conv (snd (inner (asked c) s))). split; [reflexivity|].
    eapply served_valid; eauto; [|constructor]. destruct (inner (asked c) s); reflexivity.
  - destruct (B V) as (res' & Hm). rewrite Hm in H. assert (s' = s) by congruence. assert (o = None) by congruence. subst.
    eexists _, _. split; [reflexivity|]. right. split; [exact V|]. split; [reflexivity|]. apply served_invalid; [exact V|constructor].
Qed.

(** * The invariant *)

Definition idle (Q : list (nat * bytes)) (B : btask) (i : nat) : Prop := ~ In i (map fst Q) /\ B <> BReply i.

Definition conn_ok (h : list hev) (l out Q : list (nat * bytes)) (B : btask) (I O : bytes) (A : bool) (i : nat) (c : conn) : Prop :=
  let S1 p := sent i h = frames (of_conn i l) ++ p ++ c_in c in
  let S2 p := frames (of_conn i out) = c_out c ++ p /\ Forall (valid utf8) (of_conn i l) in
  (exists x, sent i h = frames (of_conn i l) ++ x) /\
  (exists later, frames (of_conn i out) = c_out c ++ later /\ length later <= 13) /\
  (c_gone c = true -> In (EClose i) h /\ c_eof c = true) /\ (c_eof c = true -> In (EShut i) h \/ In (EClose i) h) /\
  match c_task c with
  | TRead => S1 [] /\ S2 [] /\ idle Q B i
  | TQueue m => S1 (frame m) /\ S2 [] /\ length m <= 324 /\ idle Q B i
  | TWait =>
      (exists m, In (i, m) Q /\ B <> BReply i /\ B <> BGone /\ S1 (frame m) /\ S2 []) \/
      (B = BReply i /\ ~ In i (map fst Q) /\ (frames (of_conn i out) = c_out c ++ O /\ ((I = [] /\ O = []) \/ Forall (valid utf8) (of_conn i l))) /\
        (S1 I \/ (A = false /\ O = []))) \/
      (B = BGone /\ ~ In i (map fst Q))
  | TReplied r => S1 [] /\ S2 (frame r) /\ length r = 5 /\ idle Q B i
  | TWrite rest => S1 [] /\ S2 rest /\ length rest <= 13 /\ idle Q B i
  | TEnded => idle Q B i /\ (A = true -> c_gone c = true \/ (S1 [] /\ S2 [] /\ unfinished (c_in c) /\ (c_eof c = true \/ too_long (c_in c))))
  end.

Definition pipes_ok (Q : list (nat * bytes)) (B : btask) (I O : bytes) (A : bool) : Prop :=
  match B with
  | BIdle => I = [] /\ O = []
  | BReply _ => (I = [] /\ (O = [] \/ exists r, O = frame (response r))) \/ (exists m, I = frame m /\ length m <= 324 /\ O = [])
  | BGone => A = false /\ Q = [] /\ O = []
  end.

Definition stuck (B : btask) (I O : bytes) : Prop := (exists c, B = BReply c) /\ I = [] /\ O = [].

Record inv (s0 : St) (h : list hev) (st : hst) (l out : list (nat * bytes)) : Prop := {
  i_served : served s0 l out (h_inner st);
  i_dup : NoDup (map fst (h_queue st));
  i_len : Forall (fun x => length (snd x) <= 324) (h_queue st);
  i_llen : Forall (fun x => length (snd x) <= 324) l;
  i_queued : forall i, In i (map fst (h_queue st)) -> exists c, nth_error (h_conns st) i = Some c /\ c_task c = TWait;
  i_reply : forall i, h_broker st = BReply i -> exists c, nth_error (h_conns st) i = Some c /\ c_task c = TWait;
  i_pipes : pipes_ok (h_queue st) (h_broker st) (h_stdin st) (h_stdout st) (h_alive st);
  i_dead : h_alive st = false -> h_stdin st = [];
  i_stuck : h_alive st = true -> (stuck (h_broker st) (h_stdin st) (h_stdout st) <-> Exists (fun x => ~ valid utf8 (snd x)) l);
  i_none : forall i, nth_error (h_conns st) i = None -> sent i h = [] /\ of_conn i l = [] /\ of_conn i out = [];
  i_conns : forall i c, nth_error (h_conns st) i = Some c ->
    conn_ok h l out (h_queue st) (h_broker st) (h_stdin st) (h_stdout st) (h_alive st) i c }.

Lemma inv_start s : inv s [] (hstart s) [] [].
Proof.
  constructor; cbn [hstart h_inner h_queue h_conns h_broker h_stdin h_stdout h_alive map].
  - constructor.
  - constructor.
  - constructor.
  - constructor.
  - intros i [].
  - discriminate.
  - split; reflexivity.
  - discriminate.
  - intros _. split; [intros ((c & X) & _); discriminate|intros X; inversion X].
  - intros i _. split; [reflexivity|split; reflexivity].
  - intros [|i] c X; discriminate.
Qed.

(** One more event that is not a write *)
Lemma conn_ok_h h e l out Q B I O A i c : sent i [e] = [] -> conn_ok h l out Q B I O A i c -> conn_ok (h ++ [e]) l out Q B I O A i c.
Proof.
  intros Z (X1 & X2 & X3 & X4 & X5). unfold conn_ok. rewrite sent_app, Z, app_nil_r.
  split; [exact X1|]. split; [exact X2|]. split; [intros G; destruct (X3 G); split; [apply in_or_app; now left|assumption]|].
  split; [intros G; destruct (X4 G); [left|right]; apply in_or_app; now left|exact X5].
Qed.

Lemma inv_same s0 h e st l out : (forall j, sent j [e] = []) -> inv s0 h st l out -> inv s0 (h ++ [e]) st l out.
Proof.
  intros Z [I1 I2 I3 I3' I4 I5 I6 I7 I8 I9 I10]. constructor; auto.
  - intros i N. rewrite sent_app, Z, app_nil_r. auto.
  - intros i c N. apply conn_ok_h; auto.
Qed.

Lemma inv_put s0 h e st l out i c c' : inv s0 h st l out -> nth_error (h_conns st) i = Some c -> (forall j, sent j [e] = []) ->
  (c_task c' = TWait \/ idle (h_queue st) (h_broker st) i) ->
  conn_ok (h ++ [e]) l out (h_queue st) (h_broker st) (h_stdin st) (h_stdout st) (h_alive st) i c' ->
  inv s0 (h ++ [e]) (with_conns st (set_nth i c' (h_conns st))) l out.
Proof.
  intros [I1 I2 I3 I3' I4 I5 I6 I7 I8 I9 I10] N Z T C. pose proof (nth_lt _ _ _ N) as L.
  constructor; cbn [with_conns h_inner h_queue h_conns h_broker h_stdin h_stdout h_alive]; auto.
  - intros j K. rewrite nth_set by exact L. destruct (Nat.eqb_spec j i) as [->|]; [|auto]. destruct T as [T|[T _]]; [eauto|contradiction].
  - intros j K. rewrite nth_set by exact L. destruct (Nat.eqb_spec j i) as [->|]; [|auto]. destruct T as [T|[_ T]]; [eauto|contradiction].
  - intros j K. rewrite nth_set in K by exact L. revert K. destruct (Nat.eqb_spec j i) as [->|]; intros K; [discriminate|]. rewrite sent_app, Z, app_nil_r. auto.
  - intros j d K. rewrite nth_set in K by exact L. revert K. destruct (Nat.eqb_spec j i) as [->|]; intros K; [assert (d = c') as -> by congruence; exact C|].
    apply conn_ok_h; auto.
Qed.

(** ** The task of a connection *)

Lemma step_task s0 h st l out i k : inv s0 h st l out -> inv s0 (h ++ [ETask i k]) (step st (ETask i k)) l out.
Proof.
  intros V. assert (Z : forall j, sent j [ETask i k] = []) by reflexivity.
  assert (Same := inv_same s0 h (ETask i k) st l out Z V).
  cbn [hstep]. destruct (nth_error (h_conns st) i) as [c|] eqn:N; [|exact Same].
  pose proof (i_conns _ _ _ _ _ V i c N) as K. apply (conn_ok_h h (ETask i k)) in K; [|reflexivity].
  pose proof (inv_put s0 h (ETask i k) st l out i c) as Put.
  unfold task_step. destruct K as (X1 & X2 & X3 & X4 & X5). destruct (c_task c) as [|m| |r|rest|] eqn:T.
  - (* reading *)
    destruct X5 as (S1 & S2 & Id). unfold read_request. destruct (accept_request (c_in c)) as [[m rest]|] eqn:Ac.
    + apply C40_requests_read in Ac. destruct Ac as [Lm Ac]. apply Put; auto. unfold conn_ok. cbn [c_in c_eof c_gone c_task c_out].
      rewrite Ac in S1. cbn [List.app] in S1. split; [exact X1|]. split; [exact X2|]. split; [exact X3|]. split; [exact X4|].
      split; [exact S1|]. split; [exact S2|]. split; [exact Lm|exact Id].
    + apply accept_none in Ac.
      destruct (Nat.leb 8 (length (c_in c)) && N.ltb (N.of_nat REQUEST_MSG_BUFFER_SIZE) (le_dec (firstn 8 (c_in c))))%bool eqn:TL.
      * apply too_long_spec in TL. apply Put; auto. unfold conn_ok. cbn [with_task c_in c_eof c_gone c_task c_out].
        split; [exact X1|]. split; [exact X2|]. split; [exact X3|]. split; [exact X4|]. split; [exact Id|]. intros _. right. auto.
      * destruct (c_eof c) eqn:Eo.
        -- apply Put; auto. unfold conn_ok. cbn [with_task c_in c_eof c_gone c_task c_out]. rewrite Eo.
           split; [exact X1|]. split; [exact X2|]. split; [exact X3|]. split; [exact X4|]. split; [exact Id|]. intros _. right. auto.
        -- rewrite set_same by exact N. destruct st; exact Same.
  - (* queueing *)
    destruct X5 as (S1 & S2 & Lm & Id).
    assert (Q : h_broker st <> BGone -> inv s0 (h ++ [ETask i k])
      {| h_conns := set_nth i (with_task c TWait) (h_conns st); h_queue := h_queue st ++ [(i, m)]; h_broker := h_broker st;
         h_stdin := h_stdin st; h_stdout := h_stdout st; h_inner := h_inner st; h_alive := h_alive st |} l out).
    { intros NG. destruct Id as [Id1 Id2]. pose proof (nth_lt _ _ _ N) as L. destruct V as [I1 I2 I3 I3' I4 I5 I6 I7 I8 I9 I10].
      constructor; cbn [h_inner h_queue h_conns h_broker h_stdin h_stdout h_alive]; auto.
      - rewrite map_app. cbn [map fst]. apply NoDup_Add with (a := i) (l := map fst (h_queue st)); [|split; assumption].
        rewrite <- (app_nil_r (map fst (h_queue st))) at 1. apply Add_app.
      - apply Forall_app. split; [exact I3|]. constructor; [exact Lm|constructor].
      - intros j J. rewrite nth_set by exact L. destruct (Nat.eqb_spec j i) as [->|NE]; [eexists; split; reflexivity|].
        apply I4. rewrite map_app in J. apply in_app_or in J. destruct J as [J|[J|[]]]; [exact J|]. cbn [fst] in J. congruence.
      - intros j J. rewrite nth_set by exact L. destruct (Nat.eqb_spec j i) as [->|NE]; [eexists; split; reflexivity|]. auto.
      - revert I6 NG. unfold pipes_ok. destruct (h_broker st); [tauto|tauto|intros _ X; destruct (X eq_refl)].
      - intros j J. rewrite nth_set in J by exact L. revert J. destruct (Nat.eqb_spec j i); intros J; [discriminate|]. rewrite sent_app, Z, app_nil_r. auto.
      - intros j d J. rewrite nth_set in J by exact L. revert J. destruct (Nat.eqb_spec j i) as [->|NE]; intros J.
        + assert (d = with_task c TWait) as -> by congruence. unfold conn_ok. cbn [with_task c_in c_eof c_gone c_task c_out].
          split; [exact X1|]. split; [exact X2|]. split; [exact X3|]. split; [exact X4|]. left. exists m.
          split; [apply in_or_app; right; left; reflexivity|]. split; [exact Id2|]. split; [exact NG|]. split; [exact S1|exact S2].
        + apply I10 in J. apply (conn_ok_h h (ETask i k)) in J; [|reflexivity]. destruct J as (Y1 & Y2 & Y3 & Y4 & Y5).
          split; [exact Y1|]. split; [exact Y2|]. split; [exact Y3|]. split; [exact Y4|].
          assert (In' : forall x, ~ In x (map fst (h_queue st)) -> x = j -> ~ In x (map fst (h_queue st ++ [(i, m)]))).
          { intros x X Ej Y. rewrite map_app in Y. apply in_app_or in Y. destruct Y as [Y|[Y|[]]]; [auto|]. cbn [fst] in Y. congruence. }
          destruct (c_task d).
          * destruct Y5 as (Y5 & Y6 & Y7 & Y8). split; [exact Y5|]. split; [exact Y6|]. split; [now apply In'|exact Y8].
          * destruct Y5 as (Y5 & Y6 & Y9 & Y7 & Y8). split; [exact Y5|]. split; [exact Y6|]. split; [exact Y9|]. split; [now apply In'|exact Y8].
          * destruct Y5 as [(m' & J1 & J2)|[(J1 & J2 & J3)|(J1 & J2)]].
            -- left. exists m'. split; [apply in_or_app; now left|exact J2].
            -- right. left. split; [exact J1|]. split; [now apply In'|exact J3].
            -- right. right. split; [exact J1|now apply In'].
          * destruct Y5 as (Y5 & Y6 & Y9 & Y7 & Y8). split; [exact Y5|]. split; [exact Y6|]. split; [exact Y9|]. split; [now apply In'|exact Y8].
          * destruct Y5 as (Y5 & Y6 & Y9 & Y7 & Y8). split; [exact Y5|]. split; [exact Y6|]. split; [exact Y9|]. split; [now apply In'|exact Y8].
          * destruct Y5 as ((Y5 & Y6) & Y7). split; [split; [now apply In'|exact Y6]|exact Y7]. }
    destruct (h_broker st) eqn:B.
    + destruct (Nat.ltb _ _); [apply Q; congruence|exact Same].
    + destruct (Nat.ltb _ _); [apply Q; congruence|exact Same].
    + pose proof (i_pipes _ _ _ _ _ V) as P. rewrite B in P. destruct P as (Dead & _). apply Put; auto. unfold conn_ok. cbn [with_task c_in c_eof c_gone c_task c_out].
      split; [exact X1|]. split; [exact X2|]. split; [exact X3|]. split; [exact X4|]. split; [exact Id|]. congruence.
  - (* waiting *)
    destruct (h_broker st) eqn:B; try exact Same.
    pose proof (i_pipes _ _ _ _ _ V) as P. rewrite B in P. destruct P as (Dead & Qn & _).
    assert (Id : idle (h_queue st) BGone i) by (split; [rewrite Qn; intros []|discriminate]).
    apply Put; auto. unfold conn_ok. cbn [with_task c_in c_eof c_gone c_task c_out].
    split; [exact X1|]. split; [exact X2|]. split; [exact X3|]. split; [exact X4|]. split; [exact Id|]. congruence.
  - (* reply *)
    destruct X5 as (S1 & S2 & Lr & Id). apply Put; auto. unfold conn_ok. cbn [with_task c_in c_eof c_gone c_task c_out].
    split; [exact X1|]. split; [exact X2|]. split; [exact X3|]. split; [exact X4|]. split; [exact S1|]. split; [exact S2|].
    split; [|exact Id]. rewrite app_length, le_enc_length. lia.
  - (* writing *)
    destruct X5 as (S1 & S2 & Lr & Id). destruct rest as [|b rest].
    + apply Put; auto. unfold conn_ok. cbn [with_task c_in c_eof c_gone c_task c_out].
      split; [exact X1|]. split; [exact X2|]. split; [exact X3|]. split; [exact X4|]. split; [exact S1|]. split; [exact S2|exact Id].
    + set (w := b :: rest) in *. destruct (c_gone c) eqn:G.
      * apply Put; auto. unfold conn_ok. cbn [with_task c_in c_eof c_gone c_task c_out]. rewrite G.
        split; [exact X1|]. split; [exact X2|]. split; [exact X3|]. split; [exact X4|]. split; [exact Id|]. auto.
      * apply Put; auto. unfold conn_ok. cbn [c_in c_eof c_gone c_task c_out].
        assert (Sp : frames (of_conn i out) = (c_out c ++ firstn (S k) w) ++ skipn (S k) w) by (rewrite <- app_assoc, firstn_skipn; exact (proj1 S2)).
        assert (Ls : length (skipn (S k) w) <= 13) by (rewrite skipn_length; lia).
        split; [exact X1|]. split; [exists (skipn (S k) w); split; [exact Sp|exact Ls]|]. split; [exact X3|]. split; [exact X4|].
        split; [exact S1|]. split; [split; [exact Sp|exact (proj2 S2)]|]. split; [exact Ls|exact Id].
  - exact Same.
Qed.

(** ** A connection that a step does not concern *)

Lemma conn_ok_other h h' l l' out out' Q Q' B B' I I' O O' A A' i c :
  sent i h' = sent i h -> (forall e, In e h -> In e h') -> of_conn i l' = of_conn i l -> of_conn i out' = of_conn i out ->
  (idle Q B i -> idle Q' B' i) -> (A' = true -> A = true) ->
  (c_task c = TWait ->
    (forall m, In (i, m) Q -> B <> BReply i -> B <> BGone ->
       sent i h = frames (of_conn i l) ++ frame m ++ c_in c -> frames (of_conn i out) = c_out c ++ [] /\ Forall (valid utf8) (of_conn i l) ->
       (In (i, m) Q' /\ B' <> BReply i /\ B' <> BGone) \/ (B' = BReply i /\ ~ In i (map fst Q') /\ O' = [] /\ I' = frame m) \/ (B' = BGone /\ ~ In i (map fst Q'))) /\
    (B = BReply i -> ~ In i (map fst Q) -> 
       (B' = BReply i /\ ~ In i (map fst Q') /\ O' = O /\ (I' = I \/ (O <> [] /\ A = false) \/ (A' = false /\ O = [] /\ I' = []))) \/ (B' = BGone /\ ~ In i (map fst Q'))) /\
    (B = BGone -> ~ In i (map fst Q) -> B' = BGone /\ ~ In i (map fst Q'))) ->
  (O <> [] -> A = false -> I = I') ->
  conn_ok h l out Q B I O A i c -> conn_ok h' l' out' Q' B' I' O' A' i c.
Proof.
  intros Hs Hh Hl Ho Hi HA Hw HO (X1 & X2 & X3 & X4 & X5). unfold conn_ok. rewrite Hs, Hl, Ho.
  split; [exact X1|]. split; [exact X2|]. split; [intros G; destruct (X3 G); auto|]. split; [intros G; destruct (X4 G); auto|].
  destruct (c_task c) eqn:T.
  - intuition.
  - intuition.
  - destruct (Hw eq_refl) as (W1 & W2 & W3). destruct X5 as [(m & J1 & J2 & J3 & J4 & J5)|[(J1 & J2 & J3 & J4)|(J1 & J2)]].
    + destruct (W1 m J1 J2 J3 J4 J5) as [(K1 & K2 & K3)|[(K1 & K2 & K3 & K4)|K]].
      * left. exists m. auto.
      * right. left. subst O' I'. destruct J5. auto 8.
      * right. right. exact K.
    + destruct (W2 J1 J2) as [(K1 & K2 & K3 & K4)|K]; [|right; right; exact K]. right. left. subst O'.
      split; [exact K1|]. split; [exact K2|].
      split. { destruct J3 as [J3 JV]. split; [exact J3|]. destruct K4 as [->|[[K4 K5]|(K4 & K5 & K6)]]; [exact JV| |left; auto]. destruct JV as [[_ JV]|JV]; [contradiction|right; exact JV]. }
      destruct J4 as [J4|[JA JO]].
      * destruct K4 as [->|[[K4 K5]|(K4 & K5 & _)]]; [left; exact J4| |right; auto]. left. rewrite <- (HO K4 K5). exact J4.
      * right. split; [|exact JO]. destruct A'; [specialize (HA eq_refl); congruence|reflexivity].
    + right. right. auto.
  - intuition.
  - intuition.
  - destruct X5 as [Y1 Y2]. split; [auto|]. intros HA'. auto.
Qed.

Lemma frame_cons_ne m : frame m <> [].
Proof. intros H. apply (f_equal (@length byte)) in H. rewrite frame_length in H. cbn [length] in H. lia. Qed.
Lemma no_frame_nil : accept_request [] = None.
Proof. reflexivity. Qed.
Lemma accept_frame m : length m <= 324 -> accept_request (frame m) = Some (m, []).
Proof. intros L. apply C40_requests_read. rewrite app_nil_r. auto. Qed.

Lemma gone_ok s0 h e st l out : (forall j, sent j [e] = []) -> h_alive st = false -> inv s0 h st l out ->
  inv s0 (h ++ [e]) (broker_gone st) l out.
Proof.
  intros Z D [I1 I2 I3 I3' I4 I5 I6 I7 I8 I9 I10].
  constructor; cbn [broker_gone h_inner h_queue h_conns h_broker h_stdin h_stdout h_alive map]; auto.
  - constructor.
  - intros i [].
  - discriminate.
  - split; [exact D|]. split; reflexivity.
  - congruence.
  - intros i N. rewrite sent_app, Z, app_nil_r. auto.
  - intros i c N. apply I10 in N. revert N. apply conn_ok_other; auto.
    + rewrite sent_app, Z, app_nil_r. reflexivity.
    + intros x X. apply in_or_app. now left.
    + intros _. split; [intros []|discriminate].
    + intros _. split; [|split]; cbn [map]; intros; auto.
Qed.

(** ** The task that talks to the privileged process *)

Lemma step_broker s0 h st l out : inv s0 h st l out -> inv s0 (h ++ [EBroker]) (step st EBroker) l out.
Proof.
  intros V. assert (Z : forall j, sent j [EBroker] = []) by reflexivity.
  assert (Same := inv_same s0 h EBroker st l out Z V).
  assert (Gone := gone_ok s0 h EBroker st l out Z). cbn [hstep]. unfold broker_step.
  pose proof (i_pipes _ _ _ _ _ V) as P. destruct (h_broker st) as [|c|] eqn:B; [| |exact Same].
  - destruct (h_queue st) as [|(c, m) q] eqn:Q; [exact Same|]. destruct (h_alive st) eqn:A; [|auto].
    destruct P as [P1 P2]. rewrite P1, P2. cbn [List.app]. fold (frame m).
    destruct V as [I1 I2 I3 I3' I4 I5 I6 I7 I8 I9 I10]. rewrite B, Q, P1, P2, A in *.
    inversion I2 as [|x y N1 N2]; subst. inversion I3 as [|x y L1 L2]; subst. cbn [fst snd] in *.
    constructor; cbn [h_inner h_queue h_conns h_broker h_stdin h_stdout h_alive]; auto.
    + intros i K. apply I4. right. exact K.
    + intros i K. assert (i = c) as -> by congruence. apply I4. left. reflexivity.
    + right. exists m. auto.
    + discriminate.
    + intros _. split.
      * intros (_ & X & _). destruct (frame_cons_ne m X).
      * intros X. apply I8 in X; [|reflexivity]. destruct X as ((c' & X) & _). discriminate.
    + intros i N. rewrite sent_app, Z, app_nil_r. auto.
    + intros i d N. pose proof (I10 i d N) as K. revert K. apply conn_ok_other; auto.
      * rewrite sent_app, Z, app_nil_r. reflexivity.
      * intros x X. apply in_or_app. now left.
      * intros [X1 X2]. cbn [map fst] in X1. split; [intros X; apply X1; right; exact X|]. intros X. apply X1. left. congruence.
      * intros _. split; [|split]; try discriminate. intros m' J _ _ S1 S2. destruct J as [J|J].
        -- assert (c = i) as -> by congruence. assert (m' = m) as -> by congruence. right. left. auto.
        -- left. split; [exact J|]. split; [|discriminate]. intros X. assert (c = i) as -> by congruence. apply N1.
           apply in_map_iff. exists (i, m'). auto.
      * congruence.
  - destruct P as [(P1 & [P2|(r & P2)])|(m & P1 & Lm & P2)].
    + rewrite P2. cbn [length Nat.ltb Nat.leb]. destruct (h_alive st) eqn:A; [exact Same|auto].
    + assert (L5 : length (response r) = 5) by reflexivity.
      destruct (frame_split (response r) []) as (F1 & F2 & F3); [rewrite L5; lia|]. rewrite app_nil_r in F1, F2.
      rewrite P2. rewrite F1, F2, F3, L5. rewrite frame_length, L5. cbn [Nat.add Nat.ltb Nat.leb].
      change (N.ltb (N.of_nat RESPONSE_MSG_BUFFER_SIZE) (N.of_nat 5)) with false. rewrite Nat2N.id, app_nil_r, L5. cbn [Nat.ltb Nat.leb].
      destruct (i_reply _ _ _ _ _ V c B) as (co & N & T). rewrite N, T.
      change (firstn 5 (response r)) with (response r). change (skipn 5 (response r)) with (@nil byte).
      pose proof (nth_lt _ _ _ N) as L.
      destruct V as [I1 I2 I3 I3' I4 I5 I6 I7 I8 I9 I10]. rewrite B, P1, P2 in *.
      assert (Nq : ~ In c (map fst (h_queue st))).
      { intros X. pose proof (I10 c co N) as K. destruct K as (_ & _ & _ & _ & K). rewrite T in K.
        destruct K as [(m & _ & K & _)|[(_ & K & _)|(K & _)]]; [congruence|contradiction|discriminate]. }
      constructor; cbn [h_inner h_queue h_conns h_broker h_stdin h_stdout h_alive]; auto.
      * intros i K. rewrite nth_set by exact L. destruct (Nat.eqb_spec i c) as [->|NE]; [contradiction|auto].
      * discriminate.
      * split; reflexivity.
      * intros A. split; [intros ((c' & X) & _); discriminate|]. intros X. apply I8 in X; [|exact A].
        destruct X as (_ & _ & X). destruct (frame_cons_ne _ X).
      * intros i K. rewrite nth_set in K by exact L. revert K. destruct (Nat.eqb_spec i c); intros K; [discriminate|].
        rewrite sent_app, Z, app_nil_r. auto.
      * intros i d K. rewrite nth_set in K by exact L. revert K. destruct (Nat.eqb_spec i c) as [->|NE]; intros K.
        -- assert (d = with_task co (TReplied (response r))) as -> by congruence.
           pose proof (I10 c co N) as C. apply (conn_ok_h h EBroker) in C; [|reflexivity]. destruct C as (X1 & X2 & X3 & X4 & X5).
           rewrite T in X5. unfold conn_ok. cbn [with_task c_in c_eof c_gone c_task c_out].
           split; [exact X1|]. split; [exact X2|]. split; [exact X3|]. split; [exact X4|].
           destruct X5 as [(m & _ & X & _)|[(_ & _ & S2 & S1)|(X & _)]]; [congruence| |discriminate].
           destruct S1 as [S1|[_ X]]; [|destruct (frame_cons_ne _ X)]. destruct S2 as [S2 [[_ X]|SV]]; [destruct (frame_cons_ne _ X)|].
           split; [exact S1|]. split; [split; [exact S2|exact SV]|]. split; [exact L5|]. split; [exact Nq|discriminate].
        -- pose proof (I10 i d K) as C. revert C. apply conn_ok_other; auto.
           ++ rewrite sent_app, Z, app_nil_r. reflexivity.
           ++ intros x X. apply in_or_app. now left.
           ++ intros [Y1 Y2]. split; [exact Y1|discriminate].
           ++ intros _. split; [|split].
              ** intros m J _ _ _ _. left. split; [exact J|]. split; discriminate.
              ** intros X. congruence.
              ** discriminate.
    + rewrite P2. cbn [length Nat.ltb Nat.leb]. destruct (h_alive st) eqn:A; [exact Same|auto].
Qed.

(** ** The privileged process *)

Lemma step_priv s0 h st l out : inv s0 h st l out ->
  exists l' out', inv s0 (h ++ [EPriv]) (step st EPriv) (l ++ l') (out ++ out').
Proof.
  intros V. assert (Z : forall j, sent j [EPriv] = []) by reflexivity.
  assert (Same := inv_same s0 h EPriv st l out Z V).
  assert (Same' : exists l' out', inv s0 (h ++ [EPriv]) st (l ++ l') (out ++ out')) by (exists [], []; rewrite !app_nil_r; exact Same).
  cbn [hstep]. unfold priv_go. destruct (h_alive st) eqn:A; [|exact Same'].
  pose proof (i_pipes _ _ _ _ _ V) as P.
  destruct (h_broker st) as [|c|] eqn:B.
  - destruct P as [P1 P2]. rewrite P1. exact Same'.
  - destruct P as [(P1 & _)|(m & P1 & Lm & P2)].
    + rewrite P1. exact Same'.
    + rewrite P1, P2, accept_frame by exact Lm. destruct (priv_one c m (h_inner st)) as (s' & o & Po & Cases). rewrite Po.
      assert (Nst : ~ Exists (fun x => ~ valid utf8 (snd x)) l).
      { intros X. apply (i_stuck _ _ _ _ _ V) in X; [|exact A]. destruct X as (_ & X & _). rewrite P1 in X. destruct (frame_cons_ne _ X). }
      assert (G : exists rep, served (h_inner st) [(c, m)] (map (fun x => (c, x)) rep) s' /\ match o return list byte with Some o => o | None => [] end = frames rep /\
        length rep <= 1 /\ Forall (fun x => exists r, x = response r) rep /\ (rep = [] <-> ~ valid utf8 m)).
      { destruct Cases as [(Vm & r & -> & Sv)|(Vm & -> & Sv)].
        - exists [response r]. split; [exact Sv|]. split; [symmetry; apply frames_one|]. split; [cbn; lia|]. split; [constructor; [eauto|constructor]|].
          split; [discriminate|tauto].
        - exists []. split; [exact Sv|]. split; [reflexivity|]. split; [cbn; lia|]. split; [constructor|]. tauto. }
      destruct G as (rep & Sv & Eo & Lrep & Frep & Nrep). cbv beta iota. rewrite Eo. cbn [List.app].
      exists [(c, m)], (map (fun x => (c, x)) rep).
      assert (Out : forall i, of_conn i (map (fun x => (c, x)) rep) = if Nat.eqb c i then rep else []).
      { intros i. clear. induction rep as [|x rep IH]; [now destruct (Nat.eqb c i)|]. cbn [map].
        change ((c, x) :: map (fun x => (c, x)) rep) with ([(c, x)] ++ map (fun x => (c, x)) rep). rewrite of_conn_app, of_conn_one, IH.
        destruct (Nat.eqb c i); reflexivity. }
      assert (F13 : length (frames rep) <= 13).
      { destruct rep as [|x [|y rep]]; [cbn; lia| |cbn [length] in Lrep; lia]. rewrite frames_one, frame_length. inversion Frep as [|? ? (r & ->) _]. cbn. lia. }
      destruct V as [I1 I2 I3 I3' I4 I5 I6 I7 I8 I9 I10]. rewrite B, P1, P2, A in *.
      assert (NE : forall i d, nth_error (h_conns st) i = Some d -> c_task d <> TWait -> i <> c).
      { intros i d N T ->. destruct (I5 c eq_refl) as (d' & N' & T'). congruence. }
      constructor; cbn [h_inner h_queue h_conns h_broker h_stdin h_stdout h_alive]; auto.
      * eapply served_app; eauto.
      * apply Forall_app. split; [exact I3'|]. constructor; [exact Lm|constructor].
      * left. split; [reflexivity|]. destruct rep as [|x [|y rep]]; [left; reflexivity| |cbn [length] in Lrep; lia].
        right. inversion Frep as [|? ? (r & ->) _]. exists r. apply frames_one.
      * intros _. rewrite Exists_app. unfold stuck. split.
        -- intros (_ & _ & X). right. constructor. cbn [snd]. apply Nrep. destruct rep; [reflexivity|]. rewrite frames_cons in X.
           apply app_eq_nil in X. destruct X as [X _]. destruct (frame_cons_ne _ X).
        -- intros [X|X]; [contradiction|]. inversion X as [? ? Y|? ? Y]; subst; [|inversion Y]. cbn [snd] in Y. apply Nrep in Y. subst rep.
           split; [eauto|]. split; reflexivity.
      * intros i N. rewrite sent_app, Z, app_nil_r, !of_conn_app, of_conn_one, Out. destruct (I9 i N) as (Y1 & Y2 & Y3).
        destruct (Nat.eqb_spec c i) as [->|]; [|rewrite Y2, Y3; auto]. destruct (I5 i eq_refl) as (d & N' & _). congruence.
      * intros i d N. pose proof (I10 i d N) as K. apply (conn_ok_h h EPriv) in K; [|reflexivity]. destruct (Nat.eq_dec i c) as [->|NEq].
        -- destruct (I5 c eq_refl) as (d' & N' & T). assert (d' = d) as -> by congruence. destruct K as (X1 & X2 & X3 & X4 & X5).
           rewrite T in X5. destruct X5 as [(m' & _ & X & _)|[(_ & Nq & S2 & S1)|(X & _)]]; [congruence| |discriminate].
           destruct S1 as [S1|[X _]]; [|congruence]. destruct S2 as [S2 [[X _]|SV]]; [destruct (frame_cons_ne _ X)|].
           unfold conn_ok. rewrite T, !of_conn_app, of_conn_one, Out, Nat.eqb_refl, !frames_app, frames_one, <- !app_assoc.
           rewrite app_nil_r in S2. rewrite S2.
           split; [exists (c_in d); rewrite <- app_assoc; exact S1|]. split; [eauto|]. split; [exact X3|]. split; [exact X4|].
           right. left. split; [reflexivity|]. split; [exact Nq|].
           split; [split; [reflexivity|]|left; rewrite S1; reflexivity].
           destruct rep as [|x rep]; [left; split; reflexivity|]. right. apply Forall_app. split; [exact SV|]. constructor; [|constructor].
           destruct Cases as [(Vm & _)|(Vm & _)]; [exact Vm|]. apply Nrep in Vm. discriminate.
        -- revert K. assert (Nb : Nat.eqb c i = false) by (apply Nat.eqb_neq; auto).
           apply conn_ok_other; auto; try (rewrite of_conn_app, ?of_conn_one, ?Out, Nb, app_nil_r; reflexivity).
           intros _. split; [|split]; intros; [left; auto|congruence|discriminate].
  - destruct P as (P & _). congruence.
Qed.

Lemma step_dies s0 h st l out : inv s0 h st l out -> inv s0 (h ++ [EPrivDies]) (step st EPrivDies) l out.
Proof.
  intros V. assert (Z : forall j, sent j [EPrivDies] = []) by reflexivity. cbn [hstep].
  destruct V as [I1 I2 I3 I3' I4 I5 I6 I7 I8 I9 I10].
  assert (IO : h_stdout st <> [] -> h_stdin st = []).
  { revert I6. unfold pipes_ok. destruct (h_broker st); [tauto| |tauto]. intros [[X _]|(m & _ & _ & X)]; [auto|congruence]. }
  constructor; cbn [h_inner h_queue h_conns h_broker h_stdin h_stdout h_alive]; auto.
  - revert I6. unfold pipes_ok. destruct (h_broker st); [tauto| |tauto]. intros [[_ X]|(m & _ & _ & X)]; auto.
  - discriminate.
  - intros i N. rewrite sent_app, Z, app_nil_r. auto.
  - intros i c N. apply I10 in N. revert N. apply conn_ok_other; auto.
    + rewrite sent_app, Z, app_nil_r. reflexivity.
    + intros x X. apply in_or_app. now left.
    + discriminate.
    + intros _. split; [|split]; auto. intros X Y. left. split; [exact X|]. split; [exact Y|]. split; [reflexivity|].
      destruct (h_stdout st) eqn:Eo; [right; right; auto|]. left. symmetry. apply IO. discriminate.
Qed.

(** ** The clients *)

Lemma step_connect s0 h st l out : inv s0 h st l out -> inv s0 (h ++ [EConnect]) (step st EConnect) l out.
Proof.
  intros V. assert (Z : forall j, sent j [EConnect] = []) by reflexivity. cbn [hstep].
  destruct V as [I1 I2 I3 I3' I4 I5 I6 I7 I8 I9 I10].
  assert (Old : forall i c x, nth_error (h_conns st) i = Some c -> nth_error (h_conns st ++ [x]) i = Some c).
  { intros i c x N. rewrite nth_error_app1; [exact N|]. eapply nth_lt; eauto. }
  constructor; cbn [with_conns h_inner h_queue h_conns h_broker h_stdin h_stdout h_alive]; auto.
  - intros i K. destruct (I4 i K) as (c & N & T). eauto.
  - intros i K. destruct (I5 i K) as (c & N & T). eauto.
  - intros i N. rewrite sent_app, Z, app_nil_r. apply I9. apply nth_error_None. apply nth_error_None in N. rewrite app_length in N. lia.
  - intros i c N. destruct (nth_error (h_conns st) i) as [c'|] eqn:N'.
    + rewrite (Old _ _ _ N') in N. assert (c' = c) as -> by congruence. apply conn_ok_h; auto.
    + assert (c = {| c_in := []; c_eof := false; c_gone := false; c_task := TRead; c_out := [] |}) as ->.
      { pose proof N' as G. apply nth_error_None in G. rewrite nth_error_app2 in N by exact G. destruct (i - length (h_conns st)) as [|n]; cbn in N; [congruence|]. destruct n; discriminate. }
      destruct (I9 i N') as (Y1 & Y2 & Y3). unfold conn_ok. cbn [c_in c_eof c_gone c_task c_out]. rewrite sent_app, Z, Y1, Y2, Y3.
      split; [exists []; reflexivity|]. split; [exists []; split; [reflexivity|cbn; lia]|]. split; [discriminate|]. split; [discriminate|].
      split; [reflexivity|]. split; [split; [reflexivity|constructor]|]. split; [intros X; apply I4 in X|intros X; apply I5 in X]; destruct X as (? & X & _); congruence.
Qed.

Lemma step_send s0 h st l out i d : hcan st (ESend i d) -> inv s0 h st l out -> inv s0 (h ++ [ESend i d]) (step st (ESend i d)) l out.
Proof.
  intros (c & N & Eof) V. cbn [hstep]. rewrite N.
  destruct V as [I1 I2 I3 I3' I4 I5 I6 I7 I8 I9 I10]. pose proof (nth_lt _ _ _ N) as L.
  constructor; cbn [with_conns h_inner h_queue h_conns h_broker h_stdin h_stdout h_alive]; auto.
  - intros j K. rewrite nth_set by exact L. destruct (Nat.eqb_spec j i) as [->|]; [|auto]. destruct (I4 i K) as (c' & N' & T). assert (c' = c) as -> by congruence. eexists. split; [reflexivity|exact T].
  - intros j K. rewrite nth_set by exact L. destruct (Nat.eqb_spec j i) as [->|]; [|auto]. destruct (I5 i K) as (c' & N' & T). assert (c' = c) as -> by congruence. eexists. split; [reflexivity|exact T].
  - intros j K. rewrite nth_set in K by exact L. revert K. rewrite (Nat.eqb_sym j i), sent_app, sent_one. destruct (Nat.eqb_spec i j); intros K; [discriminate|]. rewrite app_nil_r. auto.
  - intros j x K. rewrite nth_set in K by exact L. revert K. destruct (Nat.eqb_spec j i) as [->|NE]; intros K.
    + assert (x = {| c_in := c_in c ++ d; c_eof := c_eof c; c_gone := c_gone c; c_task := c_task c; c_out := c_out c |}) as -> by congruence.
      pose proof (I10 i c N) as ((y & X1) & X2 & X3 & X4 & X5). unfold conn_ok. cbn [c_in c_eof c_gone c_task c_out].
      rewrite sent_app, sent_one, Nat.eqb_refl.
      split; [exists (y ++ d); rewrite X1; symmetry; apply app_assoc|]. split; [exact X2|].
      split; [intros G; destruct (X3 G); congruence|]. split; [congruence|].
      assert (S1 : forall p, sent i h = frames (of_conn i l) ++ p ++ c_in c -> sent i h ++ d = frames (of_conn i l) ++ p ++ c_in c ++ d).
      { intros p ->. now rewrite <- !app_assoc. }
      destruct (c_task c); try (destruct X5 as (Y1 & Y2); split; [apply S1; exact Y1|exact Y2]).
      * destruct X5 as [(m & Y1 & Y2 & Y3 & Y4 & Y5)|[(Y1 & Y2 & Y3 & Y4)|Y]].
        -- left. exists m. auto 8.
        -- right. left. split; [exact Y1|]. split; [exact Y2|]. split; [exact Y3|]. destruct Y4 as [Y4|Y4]; [left; auto|right; exact Y4].
        -- right. right. exact Y.
      * destruct X5 as [Y1 Y2]. split; [exact Y1|]. intros A. destruct (Y2 A) as [G|(W1 & W2 & W3 & W4)]; [destruct (X3 G); congruence|].
        destruct W4 as [W4|W4]; [congruence|]. right. split; [apply S1; exact W1|]. split; [exact W2|].
        pose proof (too_long_app _ d W4) as W5. split; [apply too_long_unfinished; exact W5|right; exact W5].
    + pose proof (I10 j x K) as (X1 & X2 & X3 & X4 & X5). unfold conn_ok. rewrite sent_app, sent_one.
      assert (Nb : Nat.eqb i j = false) by (apply Nat.eqb_neq; auto). rewrite Nb, app_nil_r.
      split; [exact X1|]. split; [exact X2|]. split; [intros G; destruct (X3 G); split; [apply in_or_app; now left|assumption]|].
      split; [intros G; destruct (X4 G); [left|right]; apply in_or_app; now left|exact X5].
Qed.

Lemma step_shut s0 h st l out i e : (e = EShut i \/ e = EClose i) -> inv s0 h st l out -> inv s0 (h ++ [e]) (step st e) l out.
Proof.
  intros He V. assert (Z : forall j, sent j [e] = []) by (destruct He as [->| ->]; reflexivity).
  assert (Same := inv_same s0 h e st l out Z V).
  assert (G : exists g, (g = true -> e = EClose i) /\ step st e = match nth_error (h_conns st) i with
    | Some c => with_conns st (set_nth i {| c_in := c_in c; c_eof := true; c_gone := g || c_gone c; c_task := c_task c; c_out := c_out c |} (h_conns st)) | None => st end).
  { destruct He as [->| ->]; [exists false|exists true]; split; auto; discriminate. }
  destruct G as (g & Hg & ->). destruct (nth_error (h_conns st) i) as [c|] eqn:N; [|exact Same].
  pose proof (i_conns _ _ _ _ _ V i c N) as K. apply (conn_ok_h h e) in K; [|apply Z]. destruct K as (X1 & X2 & X3 & X4 & X5).
  apply inv_put with (c := c); auto.
  - cbn [c_task]. destruct (c_task c); tauto.
  - unfold conn_ok. cbn [c_in c_eof c_gone c_task c_out]. split; [exact X1|]. split; [exact X2|].
    split. { intros Y. split; [|reflexivity]. apply orb_true_iff in Y. destruct Y as [Y|Y]; [rewrite (Hg Y); apply in_or_app; right; now left|now apply X3]. }
    split. { intros _. destruct He as [->| ->]; [left|right]; apply in_or_app; right; now left. }
    destruct (c_task c); try exact X5. destruct X5 as [Y1 Y2]. split; [exact Y1|]. intros A. destruct (Y2 A) as [W|(W1 & W2 & W3 & W4)].
    + left. rewrite W. apply orb_true_r.
    + right. auto.
Qed.

Lemma step_inv s0 h st l out e : hcan st e -> inv s0 h st l out -> exists l' out', inv s0 (h ++ [e]) (step st e) (l ++ l') (out ++ out').
Proof.
  intros C V.
  assert (W : inv s0 (h ++ [e]) (step st e) l out -> exists l' out', inv s0 (h ++ [e]) (step st e) (l ++ l') (out ++ out')).
  { intros X. exists [], []. now rewrite !app_nil_r. }
  destruct e.
  - apply W, step_connect, V.
  - apply W, step_send; assumption.
  - apply W. eapply step_shut; eauto.
  - apply W. eapply step_shut; eauto.
  - apply W, step_task, V.
  - apply W, step_broker, V.
  - apply step_priv, V.
  - apply W, step_dies, V.
Qed.

Lemma hist_inv s0 es : forall h st st' l out, inv s0 h st l out -> hist st es st' -> exists l' out', inv s0 (h ++ es) st' (l ++ l') (out ++ out').
Proof.
  induction es as [|e es IH]; intros h st st' l out V H; inversion H; subst.
  - exists [], []. now rewrite !app_nil_r.
  - destruct (step_inv s0 h st l out e) as (l1 & o1 & V1); auto. destruct (IH _ _ _ _ _ V1 H5) as (l2 & o2 & V2).
    exists (l1 ++ l2), (o1 ++ o2). rewrite !app_assoc. rewrite <- app_assoc in V2. cbn [List.app] in V2. exact V2.
Qed.

Lemma reach s0 h st : hist (hstart s0) h st -> exists l out, inv s0 h st l out.
Proof. intros H. destruct (hist_inv s0 h [] _ _ [] [] (inv_start s0) H) as (l & out & V). eauto. Qed.

Lemma inv_order s0 h st l out : inv s0 h st l out -> in_order utf8 inner conv s0 h st l out.
Proof.
  intros V. split; [apply V|]. intros i. unfold received. destruct (nth_error (h_conns st) i) as [c|] eqn:N.
  - destruct (i_conns _ _ _ _ _ V i c N) as (X1 & X2 & _). auto.
  - destruct (i_none _ _ _ _ _ V i N) as (Y1 & Y2 & Y3). rewrite Y1, Y2, Y3. split; exists []; [reflexivity|]. split; [reflexivity|cbn; lia].
Qed.

Lemma served_lengths s l out s' i : served s l out s' -> Forall (valid utf8) (of_conn i l) -> length (of_conn i out) = length (of_conn i l).
Proof.
  intros V. induction V as [|s i0 m c rest s1 r l out s2 ? ? ? ? ? ? ? V IH|s i0 m l out s2 NV V IH]; [reflexivity| |].
  - change ((i0, m) :: l) with ([(i0, m)] ++ l). change ((i0, response (option_map conv r)) :: out) with ([(i0, response (option_map conv r))] ++ out).
    rewrite !of_conn_app, !of_conn_one, !app_length. intros F. apply Forall_app in F. rewrite IH by apply F. destruct (Nat.eqb i0 i); reflexivity.
  - change ((i0, m) :: l) with ([(i0, m)] ++ l). rewrite !of_conn_app, !of_conn_one, !app_length. intros F. apply Forall_app in F. rewrite IH by apply F.
    destruct (Nat.eqb i0 i); [|reflexivity]. destruct F as [F _]. inversion F. contradiction.
Qed.

(** However the clients write, wait, end and are scheduled, and whether or not the privileged process dies: the requests are handled one after
    the other, those of each client in the order in which it wrote them and none twice; each client is sent replies to its own requests only,
    in their order. *)
Theorem C114_in_order : forall s0 h st, hist (hstart s0) h st -> exists l out, in_order utf8 inner conv s0 h st l out.
Proof. intros s0 h st H. destruct (reach s0 h st H) as (l & out & V). exists l, out. now apply inv_order. Qed.

(** What was handled and sent stays. *)
Theorem C114_goes_on : forall s0 h st h2 st2, hist (hstart s0) h st -> hist st h2 st2 ->
  exists l out l2 out2, in_order utf8 inner conv s0 h st l out /\ in_order utf8 inner conv s0 (h ++ h2) st2 (l ++ l2) (out ++ out2).
Proof.
  intros s0 h st h2 st2 H H2. destruct (reach s0 h st H) as (l & out & V). destruct (hist_inv s0 h2 h st st2 l out V H2) as (l2 & out2 & V2).
  exists l, out, l2, out2. split; now apply inv_order.
Qed.

(** While the privileged process runs, the handler ends a connection only if this client closed it, or will write no more and has all
    replies to its requests, or announced a request that is too long; what other clients do ends no connection. *)
Theorem C114_closed : forall s0 h st i, hist (hstart s0) h st -> h_alive st = true -> closed i st ->
  In (EClose i) h \/
  exists l out rest, in_order utf8 inner conv s0 h st l out /\ sent i h = frames (of_conn i l) ++ rest /\ unfinished rest /\
    length (of_conn i out) = length (of_conn i l) /\ received i st = frames (of_conn i out) /\ (In (EShut i) h \/ too_long rest).
Proof.
  intros s0 h st i H A (c & N & T). destruct (reach s0 h st H) as (l & out & V).
  destruct (i_conns _ _ _ _ _ V i c N) as (_ & _ & X3 & X4 & X5). rewrite T in X5. destruct X5 as [_ X5].
  destruct (X5 A) as [G|(S1 & S2 & U & W)]; [left; now apply X3|].
  assert (R : In (EClose i) h \/ (In (EShut i) h \/ too_long (c_in c))) by (destruct W as [W|W]; [destruct (X4 W)|]; auto).
  destruct R as [R|R]; [left; exact R|]. right. exists l, out, (c_in c). split; [now apply inv_order|].
  destruct S2 as [S2 SV]. split; [exact S1|]. split; [exact U|].
  split; [apply served_lengths with (s := s0) (s' := h_inner st); [apply V|exact SV]|]. split; [|exact R]. unfold received. rewrite N, S2. symmetry. apply app_nil_r.
Qed.

(** * It comes to rest *)

Fixpoint total {A} (f : A -> nat) (l : list A) : nat := match l with [] => 0 | x :: l => f x + total f l end.
Lemma total_app {A} (f : A -> nat) a b : total f (a ++ b) = total f a + total f b.
Proof. induction a as [|x a IH]; cbn [List.app total]; [reflexivity|]. rewrite IH. lia. Qed.
Lemma total_set {A} (f : A -> nat) l : forall i x y, nth_error l i = Some x -> total f (set_nth i y l) + f x = total f l + f y.
Proof.
  induction l as [|z l IH]; intros [|i] x y N; cbn [nth_error set_nth total] in *; try discriminate.
  - assert (z = x) as -> by congruence. lia.
  - specialize (IH i x y N). lia.
Qed.
Definition work (c : conn) : nat :=
  100 * length (c_in c) +
  match c_task c with TRead => 1 | TQueue m => 40 * (9 + length m) + 2 | TWait => 1 | TReplied r => length r + 11 | TWrite r => length r + 2 | TEnded => 0 end.
Definition effort (st : hst) : nat :=
  total work (h_conns st) + total (fun x => 40 * (9 + length (snd x))) (h_queue st) +
  match h_broker st with BIdle => 1 | BReply _ => 2 | BGone => 0 end + 10 * length (h_stdin st) + 2 * length (h_stdout st) + (if h_alive st then 1 else 0).

Lemma put_effort (st : hst) i c c' : nth_error (h_conns st) i = Some c -> work c' < work c -> effort (with_conns st (set_nth i c' (h_conns st))) < effort st.
Proof.
  intros N L. unfold effort. cbn [with_conns h_inner h_queue h_conns h_broker h_stdin h_stdout h_alive].
  pose proof (total_set work (h_conns st) i c c' N). lia.
Qed.

Lemma task_effort st i k : step st (ETask i k) = st \/ effort (step st (ETask i k)) < effort st.
Proof.
  cbn [hstep]. destruct (nth_error (h_conns st) i) as [c|] eqn:N; [|now left]. unfold task_step.
  assert (Put : forall c', work c' < work c -> with_conns st (set_nth i c' (h_conns st)) = st \/ effort (with_conns st (set_nth i c' (h_conns st))) < effort st).
  { intros c' L. right. now apply put_effort with (c := c). }
  destruct (c_task c) as [|m| |r|[|b rest]|] eqn:T.
  - unfold read_request. destruct (accept_request (c_in c)) as [[m rest]|] eqn:Ac.
    + apply C40_requests_read in Ac. destruct Ac as [L Ac]. apply Put. unfold work. cbn [c_in c_task]. rewrite T, Ac, app_length, frame_length. lia.
    + assert (En : with_conns st (set_nth i (with_task c TEnded) (h_conns st)) = st \/ effort (with_conns st (set_nth i (with_task c TEnded) (h_conns st))) < effort st).
      { apply Put. unfold work. cbn [with_task c_in c_task]. rewrite T. lia. }
      destruct (_ && _)%bool; [exact En|]. destruct (c_eof c); [exact En|]. left. rewrite set_same by exact N. destruct st; reflexivity.
  - assert (Q : effort {| h_conns := set_nth i (with_task c TWait) (h_conns st); h_queue := h_queue st ++ [(i, m)]; h_broker := h_broker st;
         h_stdin := h_stdin st; h_stdout := h_stdout st; h_inner := h_inner st; h_alive := h_alive st |} < effort st).
    { unfold effort. cbn [h_inner h_queue h_conns h_broker h_stdin h_stdout h_alive]. rewrite total_app. cbn [total snd].
      pose proof (total_set work (h_conns st) i c (with_task c TWait) N) as X. unfold work at 2 4 in X. cbn [with_task c_in c_task] in X. rewrite T in X. lia. }
    destruct (h_broker st) eqn:B.
    + destruct (Nat.ltb _ _); [right; exact Q|now left].
    + destruct (Nat.ltb _ _); [right; exact Q|now left].
    + apply Put. unfold work. cbn [with_task c_in c_task]. rewrite T. lia.
  - destruct (h_broker st); [now left|now left|]. apply Put. unfold work. cbn [with_task c_in c_task]. rewrite T. lia.
  - apply Put. unfold work. cbn [with_task c_in c_task]. rewrite T, app_length, le_enc_length. lia.
  - apply Put. unfold work. cbn [with_task c_in c_task]. rewrite T. cbn [length]. lia.
  - destruct (c_gone c).
    + apply Put. unfold work. cbn [with_task c_in c_task]. rewrite T. lia.
    + apply Put. unfold work. cbn [c_in c_task]. rewrite T, skipn_length. cbn [length]. lia.
  - now left.
Qed.

Lemma gone_effort (st : hst) : h_broker st <> BGone -> effort (broker_gone st) < effort st.
Proof.
  intros B. unfold effort. cbn [broker_gone h_inner h_queue h_conns h_broker h_stdin h_stdout h_alive total length].
  destruct (h_broker st); [lia|lia|contradiction].
Qed.

Lemma broker_effort st : step st EBroker = st \/ effort (step st EBroker) < effort st.
Proof.
  cbn [hstep]. unfold broker_step. assert (G := gone_effort st). destruct (h_broker st) as [|c|] eqn:B; [| |now left].
  - destruct (h_queue st) as [|(c, m) q] eqn:Q; [now left|]. destruct (h_alive st) eqn:A; [|right; apply G; discriminate]. right.
    unfold effort. cbn [h_inner h_queue h_conns h_broker h_stdin h_stdout h_alive]. rewrite Q, B, A, !app_length, le_enc_length. cbn [total snd]. lia.
  - assert (G' : effort (broker_gone st) < effort st) by (apply G; discriminate).
    destruct (Nat.ltb_spec (length (h_stdout st)) 8); [destruct (h_alive st); auto|].
    destruct (N.ltb _ _); [auto|]. destruct (Nat.ltb_spec (length (skipn 8 (h_stdout st))) (N.to_nat (le_dec (firstn 8 (h_stdout st))))); [destruct (h_alive st); auto|].
    destruct (nth_error (h_conns st) c) as [co|] eqn:N; [|auto]. destruct (c_task co) eqn:T; auto. right.
    set (k := N.to_nat (le_dec (firstn 8 (h_stdout st)))) in *.
    unfold effort. cbn [h_inner h_queue h_conns h_broker h_stdin h_stdout h_alive].
    match goal with |- context [set_nth c ?y (h_conns st)] => pose proof (total_set work (h_conns st) c co y N) as X end.
    unfold work at 2 4 in X. cbn [with_task c_in c_task] in X. rewrite T in X. rewrite firstn_length in X. rewrite !skipn_length in *. rewrite B. lia.
Qed.

Lemma priv_effort st : step st EPriv = st \/ effort (step st EPriv) < effort st.
Proof.
  cbn [hstep]. unfold priv_go. destruct (h_alive st) eqn:A; [|now left].
  destruct (accept_request (h_stdin st)) as [[m rest]|] eqn:Ac.
  - apply C40_requests_read in Ac. destruct Ac as [L Ac]. destruct (priv_one 0 m (h_inner st)) as (s' & o & Po & Cases). rewrite Po. right.
    assert (Lo : length (match o return list byte with Some o => o | None => [] end) <= 13).
    { destruct Cases as [(_ & r & -> & _)|(_ & -> & _)]; [rewrite frame_length; cbn; lia|cbn; lia]. }
    unfold effort. cbn [h_inner h_queue h_conns h_broker h_stdin h_stdout h_alive]. rewrite A, Ac, app_length, frame_length.
    destruct (h_broker st); [| |cbn [length]; destruct o; lia]; rewrite app_length; lia.
  - assert (D : effort {| h_conns := h_conns st; h_queue := h_queue st; h_broker := h_broker st; h_stdin := []; h_stdout := h_stdout st; h_inner := h_inner st; h_alive := false |} < effort st).
    { unfold effort. cbn [h_inner h_queue h_conns h_broker h_stdin h_stdout h_alive length]. rewrite A. lia. }
    destruct (_ && _)%bool; [auto|]. destruct (h_broker st); auto.
Qed.

Lemma effort_step st e : internal e -> step st e = st \/ effort (step st e) < effort st.
Proof. destruct e; cbn [internal]; try tauto; intros _; [apply task_effort|apply broker_effort|apply priv_effort]. Qed.

Lemma moves_effort st es st' : moves utf8 inner conv st es st' -> length es + effort st' <= effort st.
Proof.
  intros M. induction M as [st|st e es st' I D M IH]; cbn [length]; [lia|]. destruct (effort_step st e I) as [X|X]; [contradiction|lia].
Qed.

Lemma quiet_or_moves st : quiet utf8 inner conv st \/ exists e, internal e /\ effort (step st e) < effort st.
Proof.
  destruct (effort_step st EBroker I) as [B|B]; [|right; exists EBroker; split; [exact I|exact B]].
  destruct (effort_step st EPriv I) as [P|P]; [|right; exists EPriv; split; [exact I|exact P]].
  assert (T : forall n, (forall i, i < n -> step st (ETask i 0) = st) \/ exists i, effort (step st (ETask i 0)) < effort st).
  { induction n as [|n [IH|IH]]; [left; intros; lia| |right; exact IH].
    destruct (effort_step st (ETask n 0) I) as [X|X]; [left|right; eauto]. intros i Li. destruct (Nat.eq_dec i n) as [->|]; [exact X|apply IH; lia]. }
  destruct (T (length (h_conns st))) as [X|(i & X)]; [left|right; exists (ETask i 0); split; [exact I|exact X]].
  intros e Ie. destruct e as [| | | |i k| | |]; cbn [internal] in Ie; try contradiction; [|exact B|exact P].
  destruct (nth_error (h_conns st) i) as [c|] eqn:N; [|cbn [hstep]; rewrite N; reflexivity].
  pose proof (X i (nth_lt _ _ _ N)) as Y. destruct (task_effort st i k) as [Z|Z]; [exact Z|]. exfalso.
  revert Y Z. cbn [hstep]. rewrite N. unfold task_step. destruct (c_task c) as [|m| |r|[|b rest]|] eqn:Tc; try (intros Y Z; rewrite Y in Z; lia); [|intros _ Z; lia].
  destruct (c_gone c) eqn:Gc; [intros Y Z; rewrite Y in Z; lia|]. rewrite <- Gc. intros Y _. apply (f_equal effort) in Y.
  pose proof (put_effort st i c {| c_in := c_in c; c_eof := c_eof c; c_gone := c_gone c; c_task := TWrite (skipn 1 (b :: rest)); c_out := c_out c ++ firstn 1 (b :: rest) |} N) as W.
  assert (L : effort st < effort st); [|lia]. rewrite <- Y at 1. apply W. unfold work. cbn [c_in c_task]. rewrite Tc. cbn [skipn length]. lia.
Qed.

(** From every state the handler and the privileged process come to rest after finitely many steps, whatever the order of these steps. *)
Theorem C114_settles : forall st, (exists n, forall es st', moves utf8 inner conv st es st' -> length es <= n) /\
  exists es st', moves utf8 inner conv st es st' /\ quiet utf8 inner conv st'.
Proof.
  intros st. split; [exists (effort st); intros es st' M; apply moves_effort in M; lia|].
  remember (effort st) as n eqn:En. revert st En. induction n as [n IH] using lt_wf_ind. intros st ->.
  destruct (quiet_or_moves st) as [Q|(e & Ie & L)].
  - exists [], st. split; [constructor|exact Q].
  - destruct (IH _ L _ eq_refl) as (es & st' & M & Q). exists (e :: es), st'. split; [|exact Q]. constructor; [exact Ie| |exact M]. intros X. rewrite X in L. lia.
Qed.

(** The requests of one client that were handled are among those it wrote. *)
Lemma handled_sent s0 h st l out i m : inv s0 h st l out -> In (i, m) l -> exists ms rest, sent i h = frames ms ++ rest /\ Forall (fun m => length m <= 324) ms /\ In m ms.
Proof.
  intros V J. exists (of_conn i l). destruct (inv_order _ _ _ _ _ V) as [_ O]. destruct (O i) as [(rest & S1) _]. exists rest.
  split; [exact S1|]. split; [|now apply of_conn_in]. apply Forall_forall. intros x X. apply of_conn_in in X.
  pose proof (i_llen _ _ _ _ _ V) as F. rewrite Forall_forall in F. now apply (F (i, x)).
Qed.

Lemma at_rest s0 h st l out : inv s0 h st l out -> quiet utf8 inner conv st -> h_alive st = true -> ~ stuck (h_broker st) (h_stdin st) (h_stdout st) ->
  forall i, ~ In (EClose i) h -> exists rest, sent i h = frames (of_conn i l) ++ rest /\ unfinished rest /\
    length (of_conn i out) = length (of_conn i l) /\ received i st = frames (of_conn i out).
Proof.
  intros V Q A Ns.
  pose proof (i_pipes _ _ _ _ _ V) as P.
  assert (BQ : h_broker st = BIdle /\ h_queue st = []).
  { pose proof (Q EBroker I) as QB. pose proof (Q EPriv I) as QP. cbn [hstep] in QB, QP. destruct (h_broker st) as [|c|] eqn:B.
    - split; [reflexivity|]. unfold broker_step in QB. rewrite B, A in QB. destruct (h_queue st) as [|(c, m) q] eqn:Eq; [reflexivity|].
      apply (f_equal h_broker) in QB. cbn [h_broker] in QB. congruence.
    - destruct P as [(P1 & [P2|(r & P2)])|(m & P1 & Lm & P2)].
      + destruct Ns. split; [eauto|auto].
      + exfalso. pose proof (broker_effort st) as X. cbn [hstep] in X.
        pose proof (step_broker _ _ _ _ _ V) as V'. cbn [hstep] in V'.
        destruct (i_reply _ _ _ _ _ V c B) as (co & N & T). unfold broker_step in QB. rewrite B, P2 in QB.
        assert (L5 : length (response r) = 5) by reflexivity.
        destruct (frame_split (response r) []) as (F1 & F2 & F3); [rewrite L5; lia|]. rewrite app_nil_r in F1, F2.
        rewrite F1, F2, F3, L5 in QB. rewrite frame_length, L5 in QB. cbn [Nat.add Nat.ltb Nat.leb] in QB.
        change (N.ltb (N.of_nat RESPONSE_MSG_BUFFER_SIZE) (N.of_nat 5)) with false in QB. rewrite Nat2N.id, app_nil_r, L5 in QB. cbn [Nat.ltb Nat.leb] in QB.
        rewrite N, T in QB. apply (f_equal h_broker) in QB. cbn [h_broker] in QB. congruence.
      + exfalso. unfold priv_go in QP. rewrite A, P1, accept_frame in QP by exact Lm. destruct (priv_step utf8 inner conv m (h_inner st)) as [s' o].
        apply (f_equal h_stdin) in QP. cbn [h_stdin] in QP. rewrite P1 in QP. symmetry in QP. exact (frame_cons_ne m QP).
    - destruct P as (P & _). congruence. }
  destruct BQ as [B Qe]. intros i NC.
  destruct (nth_error (h_conns st) i) as [c|] eqn:N.
  2:{ destruct (i_none _ _ _ _ _ V i N) as (Y1 & Y2 & Y3). unfold received. rewrite N, Y1, Y2, Y3. exists []. split; [reflexivity|].
      split; [apply accept_none; reflexivity|]. split; reflexivity. }
  assert (Fin : sent i h = frames (of_conn i l) ++ [] ++ c_in c -> (frames (of_conn i out) = c_out c ++ [] /\ Forall (valid utf8) (of_conn i l)) -> unfinished (c_in c) ->
    exists rest, sent i h = frames (of_conn i l) ++ rest /\ unfinished rest /\ length (of_conn i out) = length (of_conn i l) /\ received i st = frames (of_conn i out)).
  { intros S1 [S2 SV] U. exists (c_in c). split; [exact S1|]. split; [exact U|]. split; [apply served_lengths with (s := s0) (s' := h_inner st); [apply V|exact SV]|]. unfold received. rewrite N, S2. symmetry. apply app_nil_r. }
  pose proof (Q (ETask i 0) I) as QT. cbn [hstep] in QT. rewrite N in QT. unfold task_step in QT.
  destruct (i_conns _ _ _ _ _ V i c N) as (_ & _ & X3 & X4 & X5). pose proof (nth_lt _ _ _ N) as L.
  assert (Tsk : forall st', st' = st -> forall c', h_conns st' = set_nth i c' (h_conns st) -> c' = c).
  { intros st' -> c' Ec. pose proof (nth_set i c' (h_conns st) i L) as X. rewrite <- Ec, Nat.eqb_refl in X. congruence. }
  destruct (c_task c) as [|m| |r|rest|] eqn:T.
  - destruct X5 as (S1 & S2 & _). apply Fin; auto. apply accept_none. pose proof (Tsk _ QT _ eq_refl) as Ec. revert Ec. unfold read_request.
    destruct (accept_request (c_in c)) as [[m rest]|] eqn:Ac; [|reflexivity]. intros Ec. apply (f_equal c_task) in Ec. cbn [c_task] in Ec. congruence.
  - exfalso. rewrite B, Qe in QT. cbn [length Nat.ltb Nat.leb QUEUE_SIZE] in QT. apply (f_equal h_queue) in QT. cbn [h_queue List.app] in QT. congruence.
  - exfalso. rewrite B, Qe in X5. destruct X5 as [(m & [] & _)|[(X & _)|(X & _)]]; discriminate.
  - exfalso. pose proof (Tsk _ QT _ eq_refl) as Ec. apply (f_equal c_task) in Ec. cbn [with_task c_task] in Ec. congruence.
  - exfalso. destruct rest as [|b rest]; [|destruct (c_gone c)]; pose proof (Tsk _ QT _ eq_refl) as Ec; apply (f_equal c_task) in Ec; cbn [with_task c_task] in Ec; try congruence.
    assert (Ec' : skipn 1 (b :: rest) = b :: rest) by congruence. apply (f_equal (@length byte)) in Ec'. cbn [skipn length] in Ec'. lia.
  - destruct X5 as [_ X5]. destruct (X5 A) as [G|(S1 & S2 & U & _)]; [destruct NC; now apply X3|]. apply Fin; assumption.
Qed.

(** When it is at rest, the privileged process runs, and no client wrote a request that is not valid, then every complete request of a client that did not
    close its connection has its reply, and all replies were written. *)
Theorem C114_answered : forall s0 h st, hist (hstart s0) h st -> quiet utf8 inner conv st -> h_alive st = true ->
  (forall i ms rest, sent i h = frames ms ++ rest -> Forall (fun m => length m <= 324) ms -> Forall (valid utf8) ms) ->
  exists l out, in_order utf8 inner conv s0 h st l out /\
    forall i, ~ In (EClose i) h -> exists rest, sent i h = frames (of_conn i l) ++ rest /\ unfinished rest /\
      length (of_conn i out) = length (of_conn i l) /\ received i st = frames (of_conn i out).
Proof.
  intros s0 h st H Q A Val. destruct (reach s0 h st H) as (l & out & V). exists l, out. split; [now apply inv_order|].
  assert (Fv : Forall (fun x => valid utf8 (snd x)) l).
  { apply Forall_forall. intros (i, m) J. destruct (handled_sent _ _ _ _ _ _ _ V J) as (ms & rest & S1 & F & J'). cbn [snd].
    specialize (Val i ms rest S1 F). rewrite Forall_forall in Val. auto. }
  assert (Ns : ~ stuck (h_broker st) (h_stdin st) (h_stdout st)).
  { intros X. apply (i_stuck _ _ _ _ _ V A) in X. apply Exists_exists in X. destruct X as (x & J & NV). rewrite Forall_forall in Fv. exact (NV (Fv x J)). }
  intros i NC. destruct (at_rest s0 h st l out V Q A Ns i NC) as (rest & S1 & U & R). exists rest. auto.
Qed.

(** But once one client wrote a complete request that is not valid, and everything is at rest, nothing is ever handled again as long as the
    privileged process runs: no key reaches WireGuard and no client, whatever it writes, gets a further reply. *)
Theorem C114_wedge_refuted : forall s0 h st i ms bad rest h2 st2, hist (hstart s0) h st -> quiet utf8 inner conv st ->
  sent i h = frames (ms ++ [bad]) ++ rest -> Forall (fun m => length m <= 324) (ms ++ [bad]) -> ~ valid utf8 bad -> ~ In (EClose i) h ->
  hist st h2 st2 -> h_alive st2 = true ->
  h_inner st2 = h_inner st /\ exists l out, in_order utf8 inner conv s0 h st l out /\ in_order utf8 inner conv s0 (h ++ h2) st2 l out.
Proof.
  intros s0 h st i ms bad rest h2 st2 H Q S Fl NV NC H2 A2. destruct (reach s0 h st H) as (l1 & out1 & V).
  assert (D : forall st es st2, hist st es st2 -> h_alive st = false -> h_alive st2 = false).
  { clear. intros st es st2 H. induction H as [|st e es st2 C H IH]; [auto|]. intros D. apply IH. destruct e; cbn [hstep]; try exact D; try reflexivity.
    - destruct (nth_error _ _); exact D.
    - destruct (nth_error _ _); exact D.
    - destruct (nth_error _ _); exact D.
    - destruct (nth_error _ _) as [co|]; [|exact D]. unfold task_step. destruct (c_task co) as [| | | |[|]|]; try exact D; try (destruct (h_broker st); try exact D; destruct (Nat.ltb _ _); exact D). destruct (c_gone co); exact D.
    - unfold broker_step. destruct (h_broker st); [destruct (h_queue st) as [|[]]; [exact D|]; rewrite D; exact D| |exact D].
      destruct (Nat.ltb _ 8); [rewrite D; exact D|]. destruct (N.ltb _ _); [exact D|]. destruct (Nat.ltb _ _); [rewrite D; exact D|].
      destruct (nth_error _ _) as [co|]; [|exact D]. destruct (c_task co); exact D.
    - unfold priv_go. rewrite D. exact D. }
  assert (A : h_alive st = true) by (destruct (h_alive st) eqn:A; [reflexivity|]; rewrite (D _ _ _ H2 A) in A2; discriminate).
  assert (Dec : stuck (h_broker st) (h_stdin st) (h_stdout st) \/ ~ stuck (h_broker st) (h_stdin st) (h_stdout st)).
  { unfold stuck. destruct (h_broker st) as [|c|]; [right; intros ((c & X) & _); discriminate| |right; intros ((c & X) & _); discriminate].
    destruct (h_stdin st); [|right; intros (_ & X & _); discriminate]. destruct (h_stdout st); [left; eauto|right; intros (_ & _ & X); discriminate]. }
  assert (Ex : Exists (fun x => ~ valid utf8 (snd x)) l1).
  { apply (i_stuck _ _ _ _ _ V A). destruct Dec as [X|X]; [exact X|]. apply (i_stuck _ _ _ _ _ V A).
    destruct (at_rest _ _ _ _ _ V Q A X i NC) as (r & S1 & U & _).
    destruct (frames_le (of_conn i l1) (ms ++ [bad]) rest r) as (c & Ec); auto; [|congruence|].
    - apply Forall_forall. intros x Hx. apply of_conn_in in Hx. pose proof (i_llen _ _ _ _ _ V) as F. rewrite Forall_forall in F. now apply (F (i, x)).
    - apply Exists_exists. exists (i, bad). split; [|exact NV]. apply of_conn_in. rewrite Ec. apply in_or_app. left. apply in_or_app. right. now left. }
  clear H Q S Fl NV NC Dec A.
  assert (G : inv s0 (h ++ h2) st2 l1 out1 /\ h_inner st2 = h_inner st).
  { revert A2. induction H2 as [st|st e es st2 C H2 IH] in h, V |- *; intros A2; [rewrite app_nil_r; auto|].
    assert (A : h_alive st = true).
    { destruct (h_alive st) eqn:A; [reflexivity|]. assert (H' : hist st (e :: es) st2) by (constructor; assumption). rewrite (D _ _ _ H' A) in A2. discriminate. }
    pose proof (proj2 (i_stuck _ _ _ _ _ V A) Ex) as (_ & Si & _).
    assert (V1 : inv s0 (h ++ [e]) (step st e) l1 out1 /\ h_inner (step st e) = h_inner st).
    { destruct e.
      - split; [apply step_connect, V|reflexivity].
      - split; [apply step_send; assumption|]. cbn [hstep]. destruct (nth_error _ _); reflexivity.
      - split; [eapply step_shut; eauto|]. cbn [hstep]. destruct (nth_error _ _); reflexivity.
      - split; [eapply step_shut; eauto|]. cbn [hstep]. destruct (nth_error _ _); reflexivity.
      - split; [apply step_task, V|]. cbn [hstep]. destruct (nth_error _ _) as [co|]; [|reflexivity]. unfold task_step.
        destruct (c_task co) as [| | | |[|]|]; try reflexivity; try (destruct (h_broker st); try reflexivity; destruct (Nat.ltb _ _); reflexivity). destruct (c_gone co); reflexivity.
      - split; [apply step_broker, V|]. cbn [hstep]. unfold broker_step. destruct (h_broker st); [destruct (h_queue st) as [|[]]; [reflexivity|]; destruct (h_alive st); reflexivity| |reflexivity].
        destruct (Nat.ltb _ 8); [destruct (h_alive st); reflexivity|]. destruct (N.ltb _ _); [reflexivity|]. destruct (Nat.ltb _ _); [destruct (h_alive st); reflexivity|].
        destruct (nth_error _ _) as [co|]; [|reflexivity]. destruct (c_task co); reflexivity.
      - assert (E1 : step st EPriv = st).
        { cbn [hstep]. unfold priv_go. rewrite A, Si. pose proof (i_pipes _ _ _ _ _ V) as P. destruct (h_broker st); [reflexivity|reflexivity|]. destruct P; congruence. }
        rewrite E1. split; [apply inv_same; [reflexivity|exact V]|reflexivity].
      - split; [apply step_dies, V|reflexivity]. }
    destruct V1 as [V1 E1]. specialize (IH (h ++ [e]) V1 A2). rewrite <- app_assoc in IH. cbn [List.app] in IH. destruct IH as [IH1 IH2]. split; [exact IH1|congruence]. }
  destruct G as [V2 Ei]. split; [exact Ei|]. exists l1, out1. split; now apply inv_order.
Qed.

(** When the privileged process has ended, no client waits for ever: at rest, each connection is closed, or has all replies to its requests. *)
Theorem C114_dead : forall s0 h st, hist (hstart s0) h st -> quiet utf8 inner conv st -> h_alive st = false ->
  exists l out, in_order utf8 inner conv s0 h st l out /\
    forall i, i < length (h_conns st) -> closed i st \/
      exists rest, sent i h = frames (of_conn i l) ++ rest /\ unfinished rest /\
        length (of_conn i out) = length (of_conn i l) /\ received i st = frames (of_conn i out).
Proof.
  intros s0 h st H Q A. destruct (reach s0 h st H) as (l & out & V). exists l, out. split; [now apply inv_order|].
  pose proof (i_pipes _ _ _ _ _ V) as P.
  assert (BQ : h_queue st = [] /\ forall c, h_broker st <> BReply c).
  { pose proof (Q EBroker Logic.I) as QB. cbn [hstep] in QB. unfold broker_step in QB. destruct (h_broker st) as [|c|] eqn:B.
    - split; [|discriminate]. rewrite A in QB. destruct (h_queue st) as [|(c, m) q] eqn:Eq; [reflexivity|].
      apply (f_equal h_broker) in QB. cbn [broker_gone h_broker] in QB. congruence.
    - exfalso. destruct P as [(P1 & [P2|(r & P2)])|(m & P1 & Lm & P2)].
      + rewrite P2, A in QB. cbn [length Nat.ltb Nat.leb] in QB. apply (f_equal h_broker) in QB. cbn [broker_gone h_broker] in QB. congruence.
      + destruct (i_reply _ _ _ _ _ V c B) as (co & N & T). rewrite P2 in QB.
        assert (L5 : length (response r) = 5) by reflexivity.
        destruct (frame_split (response r) []) as (F1 & F2 & F3); [rewrite L5; lia|]. rewrite app_nil_r in F1, F2.
        rewrite F1, F2, F3, L5 in QB. rewrite frame_length, L5 in QB. cbn [Nat.add Nat.ltb Nat.leb] in QB.
        change (N.ltb (N.of_nat RESPONSE_MSG_BUFFER_SIZE) (N.of_nat 5)) with false in QB. rewrite Nat2N.id, app_nil_r, L5 in QB. cbn [Nat.ltb Nat.leb] in QB.
        rewrite N, T in QB. apply (f_equal h_broker) in QB. cbn [h_broker] in QB. congruence.
      + pose proof (i_dead _ _ _ _ _ V A) as X. rewrite P1 in X. exact (frame_cons_ne m X).
    - split; [apply P|discriminate]. }
  destruct BQ as [Qe NB]. intros i L. destruct (nth_error (h_conns st) i) as [c|] eqn:N; [|apply nth_error_None in N; lia].
  pose proof (Q (ETask i 0) Logic.I) as QT. cbn [hstep] in QT. rewrite N in QT. unfold task_step in QT.
  destruct (i_conns _ _ _ _ _ V i c N) as (_ & _ & X3 & X4 & X5).
  assert (Tsk : forall st', st' = st -> forall c', h_conns st' = set_nth i c' (h_conns st) -> c' = c).
  { intros st' -> c' Ec. pose proof (nth_set i c' (h_conns st) i L) as X. rewrite <- Ec, Nat.eqb_refl in X. congruence. }
  destruct (c_task c) as [|m| |r|rest|] eqn:T.
  - right. destruct X5 as (S1 & (S2 & SV) & _). exists (c_in c). split; [exact S1|]. split.
    { apply accept_none. pose proof (Tsk _ QT _ eq_refl) as Ec. revert Ec. unfold read_request.
      destruct (accept_request (c_in c)) as [[m rest]|] eqn:Ac; [|reflexivity]. intros Ec. apply (f_equal c_task) in Ec. cbn [c_task] in Ec. congruence. }
    split; [apply served_lengths with (s := s0) (s' := h_inner st); [apply V|exact SV]|]. unfold received. rewrite N, S2. symmetry. apply app_nil_r.
  - exfalso. rewrite Qe in QT. cbn [length Nat.ltb Nat.leb QUEUE_SIZE] in QT. destruct (h_broker st).
    + apply (f_equal h_queue) in QT. cbn [h_queue List.app] in QT. congruence.
    + apply (f_equal h_queue) in QT. cbn [h_queue List.app] in QT. congruence.
    + pose proof (Tsk _ QT _ eq_refl) as Ec. apply (f_equal c_task) in Ec. cbn [with_task c_task] in Ec. congruence.
  - exfalso. rewrite Qe in X5. destruct X5 as [(m & [] & _)|[(X & _)|(X & _)]]; [exact (NB _ X)|]. rewrite X in QT.
    pose proof (Tsk _ QT _ eq_refl) as Ec. apply (f_equal c_task) in Ec. cbn [with_task c_task] in Ec. congruence.
  - exfalso. pose proof (Tsk _ QT _ eq_refl) as Ec. apply (f_equal c_task) in Ec. cbn [with_task c_task] in Ec. congruence.
  - exfalso. destruct rest as [|b rest]; [|destruct (c_gone c)]; pose proof (Tsk _ QT _ eq_refl) as Ec; apply (f_equal c_task) in Ec; cbn [with_task c_task] in Ec; try congruence.
    assert (Ec' : skipn 1 (b :: rest) = b :: rest) by congruence. apply (f_equal (@length byte)) in Ec'. cbn [skipn length] in Ec'. lia.
  - left. exists c. auto.
Qed.
End Handler.
Print Assumptions C114_in_order.
Print Assumptions C114_goes_on.
Print Assumptions C114_closed.
Print Assumptions C114_settles.
Print Assumptions C114_answered.
Print Assumptions C114_wedge_refuted.
Print Assumptions C114_dead.

(** * Examples: two clients of a broker that remembers the keys *)

Module Example114.
Definition any (_ : bytes) : bool := true.
Definition remember (c : bconfig) (s : list bconfig) : list bconfig * option psk_err := (s ++ [c], if Nat.eqb (length s) 1 then Some NoSuchPeer else None).
Definition g (b : byte) : bconfig := {| g_iface := [x77; x67]; g_peer := repeat b 32; g_psk := repeat x07 32; g_extra := [] |}.
Definition sys h := fold_left (hstep any remember (fun e => e)) h (hstart []).
Definition ask b := frame (wire (g b)).
(** Both clients ask, the second in two pieces, before anything is handled. *)
Definition writes : list hev := [EConnect; EConnect; ESend 1 (firstn 100 (ask x02)); ESend 0 (ask x01); ESend 1 (skipn 100 (ask x02))].
Definition handle : list hev :=
  [ETask 1 0; ETask 0 0; ETask 1 0; ETask 0 0; EBroker; EPriv; EBroker; EBroker; EPriv; ETask 1 0; EBroker; ETask 1 3; ETask 1 99; ETask 1 0; ETask 0 0; ETask 0 40; ETask 0 0].
(** An empty request *)
Definition empty : list hev := [ESend 1 (frame []); ETask 1 0; ETask 1 0; EBroker; EPriv].

Fixpoint allowed (st : handler_st (list bconfig)) (h : list hev) : bool :=
  match h with
  | [] => true
  | e :: h =>
      match e with ESend i _ => match nth_error (h_conns st) i with Some c => negb (c_eof c) | None => false end | _ => true end &&
      allowed (hstep any remember (fun e => e) st e) h
  end.
Lemma allowed_hist h : forall st, allowed st h = true -> hhist any remember (fun e => e) st h (fold_left (hstep any remember (fun e => e)) h st).
Proof.
  induction h as [|e h IH]; intros st A; cbn [allowed fold_left] in *; [constructor|]. apply andb_true_iff in A. destruct A as [A1 A2].
  constructor; [|apply IH; exact A2]. destruct e; cbn [hcan]; auto. destruct (nth_error (h_conns st) c) as [co|]; [|discriminate].
  exists co. split; [reflexivity|]. now apply negb_true_iff.
Qed.
(** A connection has nothing to do. *)
Definition rests (b : btask) (full : bool) (c : conn) : bool :=
  match c_task c with
  | TRead => match c_in c with [] => negb (c_eof c) | _ => false end
  | TQueue _ => full && match b with BGone => false | _ => true end
  | TWait => match b with BGone => false | _ => true end
  | TEnded => true
  | _ => false
  end.
Definition all_rest (st : handler_st (list bconfig)) : bool :=
  match h_stdin st, h_stdout st with [], [] => true | _, _ => false end &&
  match h_broker st with BIdle => match h_queue st with [] => true | _ => false end | BReply _ => h_alive st | BGone => negb (h_alive st) end &&
  forallb (rests (h_broker st) (negb (Nat.ltb (length (h_queue st)) QUEUE_SIZE))) (h_conns st).
Lemma all_rest_quiet st : all_rest st = true -> quiet any remember (fun e => e) st.
Proof.
  unfold all_rest. rewrite !andb_true_iff, forallb_forall. intros ((R1 & R2) & R3).
  destruct (h_stdin st) eqn:Ei; [|discriminate]. destruct (h_stdout st) eqn:Eo; [|discriminate].
  intros e Ie. destruct e as [| | | |i k| | |]; cbn [internal] in Ie; try contradiction; cbn [hstep].
  - destruct (nth_error (h_conns st) i) as [c|] eqn:N; [|reflexivity]. pose proof (R3 c (nth_error_In _ _ N)) as R. unfold rests in R. unfold task_step.
    destruct (c_task c) as [| | | | |] eqn:T; try discriminate.
    + unfold read_request. destruct (c_in c) eqn:Ec; [|discriminate]. apply negb_true_iff in R. rewrite R. cbn [accept_request length Nat.ltb Nat.leb andb].
      rewrite set_same by exact N. destruct st; reflexivity.
    + apply andb_true_iff in R. destruct R as [R R']. apply negb_true_iff in R. rewrite R. destruct (h_broker st); [reflexivity|reflexivity|discriminate].
    + destruct (h_broker st); [reflexivity|reflexivity|discriminate].
    + reflexivity.
  - unfold broker_step. rewrite Eo. cbn [length Nat.ltb Nat.leb]. destruct (h_broker st); [destruct (h_queue st); [reflexivity|discriminate]|rewrite R2; reflexivity|reflexivity].
  - unfold priv_go. rewrite Ei. destruct (h_alive st) eqn:A; [|reflexivity]. cbn [accept_request length Nat.ltb Nat.leb andb]. destruct (h_broker st); [reflexivity|reflexivity|discriminate].
Qed.

(** Both get their replies, and at the end everything waits. *)
Example C114_nonvacuous :
  let st := sys (writes ++ handle) in
  hhist any remember (fun e => e) (hstart []) (writes ++ handle) st /\ h_alive st = true /\
  received 1 st = frame (response None) /\ received 0 st = frame (response (Some NoSuchPeer)) /\ h_inner st = [asked (g x02); asked (g x01)] /\
  quiet any remember (fun e => e) st /\
  (forall i ms rest, sent i (writes ++ handle) = frames ms ++ rest -> Forall (fun m => length m <= 324) ms -> Forall (valid any) ms).
Proof.
  assert (V : forall b, valid any (wire (g b))).
  { intros b. exists (g b), (zeros (255 - length (g_iface (g b)))).
    split; [split; reflexivity|]. split; [reflexivity|]. split; [cbn; lia|]. split; [|split]; reflexivity. }
  cbv zeta. split; [apply allowed_hist; vm_compute; reflexivity|].
  split; [vm_compute; reflexivity|]. split; [vm_compute; reflexivity|]. split; [vm_compute; reflexivity|]. split; [vm_compute; reflexivity|].
  split; [apply all_rest_quiet; vm_compute; reflexivity|].
  intros i ms rest S F. set (mine := match i with 0 => [wire (g x01)] | 1 => [wire (g x02)] | _ => [] end).
  assert (Si : sent i (writes ++ handle) = frames mine ++ []).
  { destruct i as [|[|i]]; [vm_compute; reflexivity|vm_compute; reflexivity|reflexivity]. }
  assert (Fa : Forall (valid any) mine) by (destruct i as [|[|i]]; repeat constructor; apply V).
  rewrite Si in S. destruct (frames_le mine ms rest []) as (c & Ec); auto.
  - revert Fa. apply Forall_impl. intros m (c & r & _ & _ & _ & L & _). lia.
  - apply accept_none. reflexivity.
  - rewrite Ec in Fa. apply Forall_app in Fa. apply Fa.
Qed.

(** An empty request of the second client: then the first one asks again in vain. *)
Example C114_wedge_nonvacuous :
  let st := sys (writes ++ handle ++ empty) in
  hhist any remember (fun e => e) (hstart []) (writes ++ handle ++ empty) st /\ h_alive st = true /\ quiet any remember (fun e => e) st /\
  sent 1 (writes ++ handle ++ empty) = frames ([wire (g x02)] ++ [[]]) ++ [] /\ ~ valid any [] /\
  let h2 := [ESend 0 (ask x03); ETask 0 0; ETask 0 0; EBroker; EPriv] in
  let st2 := fold_left (hstep any remember (fun e => e)) h2 st in
  hhist any remember (fun e => e) st h2 st2 /\ h_alive st2 = true /\ quiet any remember (fun e => e) st2 /\ received 0 st2 = received 0 st.
Proof.
  cbv zeta. split; [apply allowed_hist; vm_compute; reflexivity|]. split; [vm_compute; reflexivity|].
  split; [apply all_rest_quiet; vm_compute; reflexivity|]. split; [vm_compute; reflexivity|]. split; [apply empty_invalid|].
  split; [apply allowed_hist; vm_compute; reflexivity|]. split; [vm_compute; reflexivity|]. split; [apply all_rest_quiet; vm_compute; reflexivity|].
  vm_compute. reflexivity.
Qed.

(** The privileged process dies while a request waits: the connection is closed; one that has its reply stays. *)
Definition dies : list hev := [EConnect; EConnect; ESend 0 (ask x01); ETask 0 0; ETask 0 0; EBroker; EPriv; EBroker; ETask 0 0; ETask 0 12; ETask 0 0;
  ESend 1 (ask x02); ETask 1 0; ETask 1 0; EPrivDies; EBroker; ETask 1 0; ETask 1 0].
Example C114_dead_nonvacuous :
  hhist any remember (fun e => e) (hstart []) dies (sys dies) /\ h_alive (sys dies) = false /\ quiet any remember (fun e => e) (sys dies) /\
  map c_task (h_conns (sys dies)) = [TRead; TEnded] /\ received 0 (sys dies) = frame (response None).
Proof.
  split; [apply allowed_hist; vm_compute; reflexivity|]. split; [vm_compute; reflexivity|].
  split; [apply all_rest_quiet; vm_compute; reflexivity|]. split; vm_compute; reflexivity.
Qed.
End Example114.
Print Assumptions Example114.C114_nonvacuous.
Print Assumptions Example114.C114_wedge_nonvacuous.
Print Assumptions Example114.C114_dead_nonvacuous.
