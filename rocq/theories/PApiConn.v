(** Properties of connections to the API: C37, C66. *)
From Verif Require Import Base ConstTime Prims HashDomains Wire Server Protocol Wp Inv Rules Calls PollRules System
  Lpe PLpe Builder PBuilder AppIo PAppIo Api PApi ApiConn.
From Verif Require App PApp.

Local Opaque BUFFER le_enc.

(** * Writing *)
Lemma zeroize_ok e : exists e', enc_zeroize e = (e', Ok tt) /\ eok e' [] /\ length (e_buf e') = length (e_buf e).
Proof.
  unfold enc_zeroize, enc_clear. rewrite set_len_pos_ok by lia. cbn [unwrapped].
  unfold set_message_offset, set_writing_position, pos_in_buf, pos_in_msg, e_moff, HEADER_SIZE.
  cbn [e_buf e_header e_pos Nat.add Nat.sub]. rewrite message_len_enc by lia. cbn [Nat.leb N.leb N.of_nat negb].
  eexists. split; [reflexivity|]. split; [apply eok_idle|]. cbn [e_buf]. apply zeros_length.
Qed.

Lemma flush_loop_ok E vs : forall e pend e' out r, eok e pend -> pend <> [] ->
  flush_loop (E := E) vs e = (e', out, r) ->
  exists left, pend = out ++ left /\ eok e' left /\ length (e_buf e') = length (e_buf e) /\
    match r with
    | Ok (Some _) => left = []
    | Ok None => left <> []
    | Err y => left <> [] /\ exists k, y = CWrite k /\ In (WFail k) vs /\ k <> KInterrupted /\ k <> KWouldBlock
    | Panic => False
    end.
Proof.
  induction vs as [|v vs IH]; intros e pend e' out r K N F; cbn [flush_loop] in F.
  - injection F as <- <- <-. exists pend. auto.
  - destruct (write_ok e pend v K) as (_ & Wr). specialize (Wr N). destruct v as [k|k].
    + destruct Wr as (e1 & o & K1 & Eo & _ & _ & Bf & Wr). rewrite Wr in F.
      assert (Ap : o ++ skipn (length o) pend = pend) by (rewrite Eo at 1; apply firstn_skipn).
      destruct (skipn (length o) pend) as [|b p] eqn:Sk.
      * destruct (zeroize_ok e1) as (e2 & Z & K2 & L2). rewrite Z in F.
        assert (F' : e2 = e' /\ o = out /\ Ok (Some tt) = r) by (destruct (length o); injection F; auto).
        destruct F' as (<- & <- & <-). exists []. rewrite L2, Bf. auto.
      * destruct (length o) as [|n] eqn:Lo.
        { injection F as <- <- <-. exists (b :: p). rewrite Bf. split; [auto|]. split; [exact K1|].
          split; [reflexivity|]. discriminate. }
        destruct (flush_loop vs e1) as [[e2 o2] r2] eqn:F2. injection F as <- <- <-.
        destruct (IH _ _ _ _ _ K1 ltac:(discriminate) F2) as (l & El & K2 & L2 & R2).
        exists l. split; [rewrite <- app_assoc, <- El; auto|]. split; [exact K2|].
        split; [now rewrite L2, Bf|]. destruct r2 as [[|]|y|]; auto. destruct R2 as (R2 & k2 & -> & I2 & D2).
        split; [exact R2|]. exists k2. cbn [In]. auto.
    + rewrite Wr in F. destruct k.
      * destruct (flush_loop vs e) as [[e2 o2] r2] eqn:F2. injection F as <- <- <-.
        destruct (IH _ _ _ _ _ K N F2) as (l & El & K2 & L2 & R2).
        exists l. split; [exact El|]. split; [exact K2|]. split; [exact L2|].
        destruct r2 as [[|]|y|]; auto. destruct R2 as (R2 & k2 & -> & I2 & D2).
        split; [exact R2|]. exists k2. cbn [In]. auto.
      * injection F as <- <- <-. exists pend. auto.
      * injection F as <- <- <-. exists pend. split; [reflexivity|]. split; [exact K|]. split; [reflexivity|].
        split; [exact N|]. exists KUnexpectedEof. split; [reflexivity|]. split; [now left|]. split; discriminate.
      * injection F as <- <- <-. exists pend. split; [reflexivity|]. split; [exact K|]. split; [reflexivity|].
        split; [exact N|]. exists KOther. split; [reflexivity|]. split; [now left|]. split; discriminate.
Qed.

Lemma flush_ok E vs x pend x' out r : eok (x_enc x) pend ->
  flush_write_buffer (E := E) vs x = (x', out, r) ->
  exists left, pend = out ++ left /\ eok (x_enc x') left /\ length (e_buf (x_enc x')) = length (e_buf (x_enc x)) /\
    x_dec x' = x_dec x /\ x_fds x' = x_fds x /\ x_bad x' = x_bad x /\
    match r with
    | Ok (Some _) => left = []
    | Ok None => left <> []
    | Err y => left <> [] /\ exists k, y = CWrite k /\ In (WFail k) vs /\ k <> KInterrupted /\ k <> KWouldBlock
    | Panic => False
    end.
Proof.
  intros K F. unfold flush_write_buffer in F. rewrite (exhausted_ok _ _ K) in F.
  destruct pend as [|b p].
  - injection F as <- <- <-. exists []. auto 10.
  - destruct (flush_loop vs (x_enc x)) as [[e o] r0] eqn:L. injection F as <- <- <-.
    destruct (flush_loop_ok _ _ _ _ _ _ _ K ltac:(discriminate) L) as (l & A & B & C & D).
    exists l. cbn [x_enc x_dec x_fds x_bad]. auto 10.
Qed.

(** * Reading *)

(** [c] has been read of the request under way. *)
Definition reading (x : xconn) (c : stream) : Prop :=
  dok BUFFER (x_dec x) (sbytes c) /\ x_fds x = firstn MAX_REQUEST_FDS (sfds c).

Lemma sbytes_app a b : sbytes (a ++ b) = sbytes a ++ sbytes b.
Proof. apply map_app. Qed.
Lemma sfds_app a b : sfds (a ++ b) = sfds a ++ sfds b.
Proof. unfold sfds. now rewrite map_app, concat_app. Qed.
Lemma sbytes_length a : length (sbytes a) = length a.
Proof. apply map_length. Qed.
Lemma sbytes_firstn n a : sbytes (firstn n a) = firstn n (sbytes a).
Proof. unfold sbytes. symmetry. apply firstn_map. Qed.

Lemma fds_step (a b : list fdesc) n : firstn n a ++ firstn (n - length (firstn n a)) b = firstn n (a ++ b).
Proof.
  rewrite firstn_app, firstn_length. f_equal. destruct (le_lt_dec n (length a)) as [L|L].
  - rewrite Nat.min_l by lia. now replace (n - n) with (n - length a) by lia.
  - rewrite Nat.min_r by lia. reflexivity.
Qed.

Definition settled (c : stream) : option bytes :=
  match status_of BUFFER (sbytes c) with Done m => Some m | _ => None end.

Lemma conn_read_ok v x c src : reading x c ->
  match status_of BUFFER (sbytes c), v with
  | Big, _ => conn_read v x src = (x, src, Err TooLarge)
  | Done m, _ => conn_read v x src = (x, src, Ok (0, Some m))
  | Need, VRead (RFail k) => conn_read v x src = (x, src, Err (RIo k))
  | Need, VClaim k => conn_read v x src = (x, skipn k src, Err (RIo KOther))
  | Need, VRead (Give k) =>
      let part := firstn (Nat.min k (missing (sbytes c))) src in
      exists x', reading x' (c ++ part) /\ x_enc x' = x_enc x /\ x_bad x' = x_bad x /\
        conn_read v x src = (x', skipn (length part) src, Ok (length part, settled (c ++ part)))
  end.
Proof.
  intros (K & F).
  assert (Same : forall e r, read_from_stdio (x_dec x) e (sbytes src) = (x_dec x, sbytes src, r) ->
    conn_read (VRead e) x src = (x, src, r)).
  { intros e r R. unfold conn_read. rewrite R, sbytes_length, Nat.sub_diag. cbn [firstn skipn].
    change (sfds []) with (@nil fdesc). rewrite firstn_nil, app_nil_r. now destruct x. }
  destruct v as [e|k].
  - pose proof (read_ok BUFFER (x_dec x) (sbytes c) e (sbytes src) K) as R.
    destruct (status_of BUFFER (sbytes c)) eqn:St.
    + destruct e as [k|k]; [|now apply Same]. cbn zeta in *. destruct R as (d' & K' & R).
      set (part := firstn (Nat.min k (missing (sbytes c))) src) in *.
      rewrite <- sbytes_firstn in *. fold part in K', R. rewrite <- sbytes_app in K', R.
      unfold conn_read. rewrite R. rewrite skipn_length, !sbytes_length.
      assert (Lp : length part <= length src) by (unfold part; rewrite firstn_length; lia).
      replace (length src - (length src - length part)) with (length part) by lia.
      assert (Ep : firstn (length part) src = part) by apply firstn_len.
      rewrite Ep. eexists. split; [|split; [|split; [|reflexivity]]]; try reflexivity.
      split; cbn [x_dec x_fds]; [exact K'|]. rewrite F, sfds_app. apply fds_step.
    + apply Same. destruct e; exact R.
    + apply Same. destruct e; exact R.
  - pose proof (read_ok BUFFER (x_dec x) (sbytes c) (RFail KOther) (sbytes src) K) as R.
    unfold conn_read. destruct (status_of BUFFER (sbytes c)); now rewrite R.
Qed.

Lemma need_pos x c : reading x c -> status_of BUFFER (sbytes c) = Need -> 0 < missing (sbytes c).
Proof. intros (K & _). apply (need_missing _ _ _ K). Qed.

Lemma settled_done c m : settled c = Some m <-> status_of BUFFER (sbytes c) = Done m.
Proof. unfold settled. destruct (status_of _ _); split; congruence. Qed.

Lemma reading_bad x c : reading x c -> reading (set_bad x) c.
Proof. exact (fun H => H). Qed.

Lemma recv_loop_ok E vs : forall x c src x' src' r, reading x c -> x_bad x = false ->
  recv_loop (E := E) vs x src = (x', src', r) ->
  exists part lost, src = part ++ lost ++ src' /\ reading x' (c ++ part) /\ x_enc x' = x_enc x /\
    (x_bad x' = false -> lost = []) /\
    match r with
    | Ok (Some _) => x_bad x' = false /\ exists m, settled (c ++ part) = Some m
    | Ok None => settled (c ++ part) = None
    | Err y => settled (c ++ part) = None /\ x_bad x' = true /\ exists k, y = CRead k
    | Panic => False
    end.
Proof.
  induction vs as [|v vs IH]; intros x c src x' src' r K Bd R; cbn [recv_loop] in R.
  - pose proof (conn_read_ok (VRead (RFail KWouldBlock)) x c src K) as Q.
    destruct (status_of BUFFER (sbytes c)) eqn:St; rewrite Q in R; injection R as <- <- <-; exists [], [];
      rewrite app_nil_r; (split; [reflexivity|]); (split; [auto|]); (split; [reflexivity|]); (split; [auto|]);
      unfold settled; rewrite St; eauto.
  - pose proof (conn_read_ok v x c src K) as Q.
    destruct (status_of BUFFER (sbytes c)) eqn:St.
    + destruct v as [[k|k]|k].
      * cbn zeta in Q. set (part := firstn (Nat.min k (missing (sbytes c))) src) in *.
        destruct Q as (x1 & K1 & E1 & B1 & Q). rewrite Q in R.
        assert (Sp : src = part ++ skipn (length part) src).
        { assert (Ep : firstn (length part) src = part) by apply firstn_len.
          rewrite <- Ep at 1. symmetry. apply firstn_skipn. }
        destruct (settled (c ++ part)) as [m|] eqn:Se.
        { assert (R' : x1 = x' /\ skipn (length part) src = src' /\ Ok (Some tt) = r)
            by (destruct (length part); injection R; auto).
          destruct R' as (<- & <- & <-). exists part, []. split; [exact Sp|]. split; [exact K1|].
          split; [exact E1|]. split; [auto|]. split; [congruence|]. eauto. }
        destruct (length part) as [|n] eqn:Lp.
        { injection R as <- <- <-. exists part, []. split; [exact Sp|]. split; [exact K1|]. split; [exact E1|].
          split; [auto|]. exact Se. }
        destruct (IH _ _ _ _ _ _ K1 ltac:(congruence) R) as (p2 & lost & S2 & K2 & E2 & L2 & R2).
        exists (part ++ p2), lost. rewrite <- app_assoc, <- S2, !app_assoc in *.
        split; [exact Sp|]. split; [exact K2|]. split; [congruence|]. split; [exact L2|]. exact R2.
      * rewrite Q in R.
        assert (Stop : settled c = None -> (set_bad x, src, Err (CRead k)) = (x', src', r) \/
            (x, src, Ok None) = (x', src', r) ->
          exists part lost, src = part ++ lost ++ src' /\ reading x' (c ++ part) /\ x_enc x' = x_enc x /\
            (x_bad x' = false -> lost = []) /\
            match r with
            | Ok (Some _) => x_bad x' = false /\ exists m, settled (c ++ part) = Some m
            | Ok None => settled (c ++ part) = None
            | Err y => settled (c ++ part) = None /\ x_bad x' = true /\ exists k, y = CRead k
            | Panic => False
            end).
        { intros Se [Z|Z]; injection Z as <- <- <-; exists [], []; rewrite app_nil_r;
            (split; [reflexivity|]); (split; [auto|]); (split; [reflexivity|]); (split; [auto|]);
            [split; [exact Se|]; split; [reflexivity|]; eauto|exact Se]. }
        assert (Se : settled c = None) by (unfold settled; now rewrite St).
        destruct k.
        -- exact (IH _ _ _ _ _ _ K Bd R).
        -- exact (Stop Se (or_intror R)).
        -- exact (Stop Se (or_introl R)).
        -- exact (Stop Se (or_introl R)).
      * rewrite Q in R. injection R as <- <- <-. exists [], (firstn k src). rewrite app_nil_r. cbn [List.app].
        split; [symmetry; apply firstn_skipn|]. split; [exact K|]. split; [reflexivity|].
        split; [discriminate|]. split; [unfold settled; now rewrite St|]. split; [reflexivity|]. eauto.
    + rewrite Q in R. injection R as <- <- <-. exists [], []. rewrite app_nil_r.
      split; [reflexivity|]. split; [exact K|]. split; [reflexivity|]. split; [auto|].
      unfold settled. now rewrite St.
    + rewrite Q in R. injection R as <- <- <-. exists [], []. rewrite app_nil_r.
      split; [reflexivity|]. split; [exact K|]. split; [reflexivity|]. split; [auto|].
      split; [exact Bd|]. unfold settled. rewrite St. eauto.
Qed.

Lemma done_frame n d c m : dok n d c -> (N.of_nat n < 2 ^ 64)%N -> status_of n c = Done m ->
  c = frame m /\ length m <= n.
Proof.
  intros K B. unfold status_of. destruct (Nat.ltb_spec (length c) 8) as [L|L]; [discriminate|].
  destruct (N.ltb_spec (N.of_nat n) (announced c)) as [X|X]; [discriminate|].
  destruct (N.eqb_spec (N.of_nat (length c - 8)) (announced c)) as [Y|Y]; [|discriminate].
  intros Z. assert (m = skipn 8 c) as -> by congruence. split; [|rewrite skipn_length; lia].
  unfold frame. rewrite skipn_length, Y. unfold announced.
  replace (le_enc 8 (le_dec (firstn 8 c))) with (firstn 8 c); [symmetry; apply firstn_skipn|].
  symmetry. replace 8 with (length (firstn 8 c)) at 1 by (rewrite firstn_length; lia). apply le_enc_dec.
Qed.

(** * Specification

    A handler answers into the buffer it is given. *)
Definition sane {W E} (H : bytes -> list fdesc -> bytes -> W -> W * list fdesc * bytes * res E nat) : Prop :=
  forall req fds buf w w' fds' buf' r, H req fds buf w = (w', fds', buf', r) ->
    length buf' = length buf /\ (forall n, r = Ok n -> n <= length buf).

(** The application was called with this request and gave this answer. *)
Definition called {W E} (H : bytes -> list fdesc -> bytes -> W -> W * list fdesc * bytes * res E nat)
  (en : entry W E) : Prop :=
  exists buf fds' buf' n, length buf = 4096 /\
    H (en_req en) (en_fds en) buf (en_before en) = (en_after en, fds', buf', Ok n) /\
    en_answer en = Ok (firstn n buf').

Definition answered {W E} (en : entry W E) : Prop := exists m, en_answer en = Ok m.
Definition answers {W E} (l : list (entry W E)) : list bytes :=
  flat_map (fun en => match en_answer en with Ok m => [m] | _ => [] end) l.

(** [r] is a request on the wire, and it is the one of this call: its bytes are the framed request,
    and the call was given the first two of the file descriptors that came with them. *)
Definition is_request {W E} (r : stream) (en : entry W E) : Prop :=
  sbytes r = frame (en_req en) /\ en_fds en = firstn 2 (sfds r).

Section Runs.
Context {W E : Type} (H : bytes -> list fdesc -> bytes -> W -> W * list fdesc * bytes * res E nat).

(** A poll calls the application at most once, and changes it in no other way. *)
Theorem C37_one_call : forall v s s' r, conn_poll H v s = (s', r) ->
  (c_log s' = c_log s /\ c_world s' = pe_app v (c_world s)) \/
  (exists en, c_log s' = c_log s ++ [en] /\ en_before en = pe_app v (c_world s) /\ c_world s' = en_after en).
Proof.
  intros v s s' r. unfold conn_poll.
  destruct (flush_write_buffer (pe_flush v) (c_conn s)) as [[x o1] [[u|]|y|]].
  2-4: intros Z; injection Z as <- <-; left; cbn; now rewrite app_nil_r.
  destruct (conn_recv (pe_recv v) x (c_in s)) as [[x1 i] [[u1|]|y|]].
  2-4: intros Z; injection Z as <- <-; left; cbn; now rewrite app_nil_r.
  destruct (handle_incoming H x1 (pe_app v (c_world s))) as [[[x2 w] l] r2] eqn:Hd.
  assert (Cl : (l = [] /\ w = pe_app v (c_world s)) \/
               exists en, l = [en] /\ en_before en = pe_app v (c_world s) /\ w = en_after en).
  { revert Hd. unfold handle_incoming.
    destruct (exhausted (x_enc x1)) as [[|]|a|]; try (intros Z; injection Z as <- <- <- <-; now left).
    destruct (dec_message (x_dec x1)) as [[m|]|a|]; try (intros Z; injection Z as <- <- <- <-; now left).
    destruct (H m (x_fds x1) (e_buf (x_enc x1)) (pe_app v (c_world s))) as [[[w' f'] b'] [n|a|]].
    - destruct (restart_with _ _) as [e [?|?|]]; intros Z; injection Z as <- <- <- <-; right; eexists; split; try reflexivity; auto.
    - intros Z; injection Z as <- <- <- <-; right; eexists; split; try reflexivity; auto.
    - intros Z; injection Z as <- <- <- <-; right; eexists; split; try reflexivity; auto. }
  assert (Fin : c_world s' = w /\ c_log s' = c_log s ++ l -> 
    (c_log s' = c_log s /\ c_world s' = pe_app v (c_world s)) \/
    (exists en, c_log s' = c_log s ++ [en] /\ en_before en = pe_app v (c_world s) /\ c_world s' = en_after en)).
  { intros (-> & ->). destruct Cl as [(-> & ->)|(en & -> & A & ->)]; [left; now rewrite app_nil_r|right; eauto]. }
  intros Z. apply Fin. destruct r2 as [[u2|]|y|].
  - destruct (flush_write_buffer (pe_begin v) x2) as [[x3 o2] [?|?|]]; injection Z as <- <-; auto.
  - injection Z as <- <-; auto.
  - injection Z as <- <-; auto.
  - injection Z as <- <-; auto.
Qed.

Record cinv (src : stream) (s : cstate W E) (reqs : list stream) (c lost : stream) (pend : bytes) : Prop := {
  i_reading : reading (c_conn s) c;
  i_enc : eok (x_enc (c_conn s)) pend;
  i_buf : length (e_buf (x_enc (c_conn s))) = BUFFER;
  i_src : src = concat reqs ++ c ++ lost ++ c_in s;
  i_lost : x_bad (c_conn s) = false -> lost = [];
  i_reqs : Forall2 is_request reqs (c_log s);
  i_called : Forall (called H) (c_log s);
  i_out : c_out s ++ pend = concat (map frame (answers (c_log s)));
  i_pend : pend = [] \/ exists before m part, answers (c_log s) = before ++ [m] /\ frame m = part ++ pend;
  i_settled : settled c = None
}.

Lemma start_inv src w : cinv src (cst_start src w) [] [] [] [].
Proof.
  constructor; cbn [cst_start c_conn c_in c_out c_world c_log conn_new x_enc x_dec x_fds x_bad concat map List.app].
  - split; [|reflexivity]. pose proof (dok_new (zeros BUFFER)) as K. now rewrite zeros_length in K.
  - rewrite from_buffer_ok. cbn [fst]. apply eok_idle.
  - rewrite from_buffer_ok. cbn [fst e_buf]. apply zeros_length.
  - reflexivity.
  - auto.
  - constructor.
  - constructor.
  - reflexivity.
  - now left.
  - reflexivity.
Qed.

Lemma answers_app (a b : list (entry W E)) : answers (a ++ b) = answers a ++ answers b.
Proof. apply flat_map_app. Qed.

Lemma pend_step log pend out left (o0 : bytes) : o0 ++ pend = concat (map frame log) -> pend = out ++ left ->
  (pend = [] \/ exists before m part, log = before ++ [m] /\ frame m = part ++ pend) ->
  (o0 ++ out) ++ left = concat (map frame log) /\
  (left = [] \/ exists before m part, log = before ++ [m] /\ frame m = part ++ left).
Proof.
  intros A -> P. split; [now rewrite <- app_assoc|].
  destruct P as [P|(b & m & part & L & F)].
  - left. now destruct out; [|discriminate].
  - right. exists b, m, (part ++ out). split; [exact L|]. now rewrite <- app_assoc.
Qed.

Lemma poll_inv (SH : sane H) src s reqs c lost pend v s' r : cinv src s reqs c lost pend ->
  conn_poll H v s = (s', r) -> Forall answered (c_log s') ->
  r <> Panic /\ (forall y, r <> Err (CHandler y)) /\ exists reqs' c' lost' pend', cinv src s' reqs' c' lost' pend'.
Proof.
  intros I P An. unfold conn_poll in P.
  destruct (flush_write_buffer (pe_flush v) (c_conn s)) as [[x o1] r1] eqn:F1.
  destruct (flush_ok _ _ _ _ _ _ _ (i_enc _ _ _ _ _ _ I) F1) as (l1 & P1 & K1 & L1 & D1 & Fd1 & B1 & R1).
  destruct (pend_step _ _ _ _ _ (i_out _ _ _ _ _ _ I) P1 (i_pend _ _ _ _ _ _ I)) as (O1 & Q1).
  assert (Rd1 : reading x c).
  { unfold reading. rewrite D1, Fd1. exact (i_reading _ _ _ _ _ _ I). }
  assert (Stop1 : forall w, cinv src {| c_conn := x; c_in := c_in s; c_out := c_out s ++ o1; c_world := w;
                                c_log := c_log s ++ [] |} reqs c lost l1).
  { intros w. constructor; cbn [c_conn c_in c_out c_world c_log]; rewrite ?app_nil_r; try (apply I); auto.
    - rewrite L1. apply I.
    - rewrite B1. apply I. }
  destruct r1 as [[u|]|y|].
  2:{ injection P as <- <-. split; [discriminate|]. split; [discriminate|]. eauto 10. }
  2:{ injection P as <- <-. split; [discriminate|]. destruct R1 as (_ & k & -> & _). split; [discriminate|]. eauto 10. }
  2:{ destruct R1. }
  subst l1.
  destruct (conn_recv (pe_recv v) x (c_in s)) as [[x1 i] r2] eqn:Rc.
  assert (Rcv : exists part lost1, c_in s = part ++ lost1 ++ i /\ reading x1 (c ++ part) /\ x_enc x1 = x_enc x /\
    (x_bad x1 = false -> x_bad x = false /\ lost1 = []) /\ (x_bad x = true -> part = []) /\
    match r2 with
    | Ok (Some _) => x_bad x1 = false /\ exists m, settled (c ++ part) = Some m
    | Ok None => settled (c ++ part) = None
    | Err y => settled (c ++ part) = None /\ x_bad x1 = true /\ exists k, y = CRead k
    | Panic => False
    end).
  { unfold conn_recv in Rc. rewrite (exhausted_ok _ _ K1) in Rc. cbn [negb orb] in Rc.
    destruct (x_bad x) eqn:Bx.
    - injection Rc as <- <- <-. exists [], []. rewrite app_nil_r.
      split; [reflexivity|]. split; [exact Rd1|]. split; [reflexivity|]. split; [congruence|].
      split; [auto|]. apply I.
    - destruct (recv_loop_ok _ _ _ _ _ _ _ _ Rd1 Bx Rc) as (p & lo & A & B & C & D & G).
      exists p, lo. repeat (split; [try assumption; auto|]); auto. discriminate. }
  destruct Rcv as (part & lost1 & Si & Rd2 & Ex & Ls & Bp & R2).
  set (c1 := c ++ part) in *.
  assert (Src1 : src = concat reqs ++ c1 ++ (lost ++ lost1) ++ i /\ (x_bad x1 = false -> lost ++ lost1 = [])).
  { pose proof (i_src _ _ _ _ _ _ I) as S0. rewrite Si in S0.
    destruct (x_bad x) eqn:Bx.
    - split; [|intros Z; destruct (Ls Z); discriminate].
      unfold c1. rewrite S0, (Bp eq_refl), app_nil_r. cbn [List.app]. now rewrite <- !app_assoc.
    - assert (Lz : lost = []) by (apply (i_lost _ _ _ _ _ _ I); congruence). split.
      + unfold c1. rewrite S0, Lz. cbn [List.app]. now rewrite <- !app_assoc.
      + intros Z. rewrite Lz. now apply Ls. }
  destruct Src1 as (S1 & Lo1).
  assert (Stop2 : forall w, settled c1 = None ->
    cinv src {| c_conn := x1; c_in := i; c_out := c_out s ++ o1; c_world := w; c_log := c_log s ++ [] |}
      reqs c1 (lost ++ lost1) []).
  { intros w Se. constructor; cbn [c_conn c_in c_out c_world c_log]; rewrite ?app_nil_r; try (apply I); auto.
    - now rewrite Ex.
    - rewrite Ex, L1. apply I.
    - now rewrite app_nil_r in O1. }
  destruct r2 as [[u2|]|y|].
  2:{ injection P as <- <-. split; [discriminate|]. split; [discriminate|]. eauto 10. }
  2:{ injection P as <- <-. split; [discriminate|]. destruct R2 as (Se & _ & k & ->). split; [discriminate|]. eauto 10. }
  2:{ destruct R2. }
  destruct R2 as (B2 & m & Se). destruct (Ls B2) as (Bx & Lo). specialize (Lo1 B2).
  pose proof (proj1 (settled_done _ _) Se) as St.
  assert (BF : (N.of_nat BUFFER < 2 ^ 64)%N) by (vm_compute; reflexivity).
  destruct (done_frame _ _ _ _ (proj1 Rd2) BF St) as (Fr & Lm).
  destruct (handle_incoming H x1 (pe_app v (c_world s))) as [[[x2 w] l] r3] eqn:Hd.
  unfold handle_incoming in Hd. rewrite Ex, (exhausted_ok _ _ K1) in Hd.
  rewrite (message_ok _ _ _ (proj1 Rd2)), St in Hd.
  destruct (H m (x_fds x1) (e_buf (x_enc x)) (pe_app v (c_world s))) as [[[w' f'] b'] rh] eqn:Hc.
  destruct (SH _ _ _ _ _ _ _ _ Hc) as (Lb & Ln).
  assert (Bl : length (e_buf (x_enc x)) = BUFFER) by (rewrite L1; apply I).
  destruct rh as [n|y|].
  2:{ exfalso. injection Hd as <- <- <- <-. injection P as <- <-. cbn [c_log] in An.
      apply Forall_app in An. destruct An as (_ & An). inversion An as [|? ? (z & Z) _]. discriminate Z. }
  2:{ exfalso. injection Hd as <- <- <- <-. injection P as <- <-. cbn [c_log] in An.
      apply Forall_app in An. destruct An as (_ & An). inversion An as [|? ? (z & Z) _]. discriminate Z. }
  specialize (Ln n eq_refl).
  assert (Fn : length (firstn n b') = n) by (rewrite firstn_length; lia).
  assert (Rs : exists e', restart_with (N.of_nat n) {| e_buf := b'; e_header := e_header (x_enc x); e_pos := e_pos (x_enc x) |}
               = (e', Ok tt) /\ eok e' (frame (firstn n b')) /\ length (e_buf e') = BUFFER).
  { unfold restart_with. rewrite set_len_pos_ok by lia.
    eexists. split; [reflexivity|]. split; [|cbn [e_buf]; congruence].
    pose proof (eok_fresh b' (N.of_nat n) 0 ltac:(lia) ltac:(lia) ltac:(lia)) as Kf.
    cbn [skipn] in Kf. rewrite Nat2N.id in Kf. unfold frame. rewrite Fn. exact Kf. }
  destruct Rs as (e' & Rs & Ke & Le). rewrite Rs in Hd. injection Hd as <- <- <- <-.
  set (en := {| en_req := m; en_fds := x_fds x1; en_before := pe_app v (c_world s); en_after := w';
                en_answer := Ok (firstn n b') |}) in *.
  set (x2 := {| x_dec := dec_clear (x_dec x1); x_fds := []; x_enc := e'; x_bad := x_bad x1 |}) in *.
  destruct (flush_write_buffer (pe_begin v) x2) as [[x3 o2] r4] eqn:F3.
  destruct (flush_ok _ _ _ _ _ _ _ (Ke : eok (x_enc x2) _) F3) as (l3 & P3 & K3 & L3 & D3 & Fd3 & B3 & R3).
  assert (Fin : cinv src {| c_conn := x3; c_in := i; c_out := c_out s ++ o1 ++ o2; c_world := w'; c_log := c_log s ++ [en] |}
    (reqs ++ [c1]) [] [] l3).
  { assert (Ea : answers (c_log s ++ [en]) = answers (c_log s) ++ [firstn n b']) by (now rewrite answers_app).
    constructor; cbn [c_conn c_in c_out c_world c_log].
    - split; [rewrite D3; unfold x2; cbn [x_dec]; apply (dok_clear _ _ _ (proj1 Rd2))|now rewrite Fd3].
    - exact K3.
    - rewrite L3. exact Le.
    - rewrite concat_app. cbn [concat List.app]. rewrite app_nil_r, <- app_assoc. rewrite S1, Lo1. reflexivity.
    - auto.
    - apply Forall2_app; [apply I|]. constructor; [|constructor]. split; [exact Fr|]. exact (proj2 Rd2).
    - apply Forall_app. split; [apply I|]. constructor; [|constructor].
      exists (e_buf (x_enc x)), f', b', n. split; [exact Bl|]. split; [exact Hc|reflexivity].
    - rewrite Ea, map_app, concat_app. cbn [map concat]. rewrite app_nil_r, P3, <- O1, app_nil_r.
      now rewrite <- !app_assoc.
    - right. exists (answers (c_log s)), (firstn n b'), o2. auto.
    - reflexivity. }
  destruct r4 as [o4|y|]; [| |destruct R3].
  - injection P as <- <-. split; [discriminate|]. split; [discriminate|]. eauto 10.
  - injection P as <- <-. split; [discriminate|]. destruct R3 as (_ & k & -> & _). split; [discriminate|]. eauto 10.
Qed.

Lemma polls_log vs : forall s s' rs, conn_polls H vs s = (s', rs) -> exists l, c_log s' = c_log s ++ l.
Proof.
  induction vs as [|v vs IH]; intros s s' rs P; cbn [conn_polls] in P.
  - injection P as <- <-. exists []. now rewrite app_nil_r.
  - destruct (conn_poll H v s) as [s1 r1] eqn:P1.
    assert (L1 : exists l, c_log s1 = c_log s ++ l).
    { destruct (C37_one_call _ _ _ _ P1) as [(-> & _)|(en & -> & _)]; [exists []; now rewrite app_nil_r|eauto]. }
    destruct L1 as (l1 & L1).
    destruct r1 as [u|y|].
    + destruct (conn_polls H vs s1) as [s2 rs2] eqn:P2. injection P as <- <-.
      destruct (IH _ _ _ P2) as (l2 & L2). exists (l1 ++ l2). now rewrite L2, L1, app_assoc.
    + destruct (conn_polls H vs s1) as [s2 rs2] eqn:P2. injection P as <- <-.
      destruct (IH _ _ _ P2) as (l2 & L2). exists (l1 ++ l2). now rewrite L2, L1, app_assoc.
    + injection P as <- <-. eauto.
Qed.

Lemma polls_inv (SH : sane H) vs : forall src s reqs c lost pend s' rs, cinv src s reqs c lost pend ->
  conn_polls H vs s = (s', rs) -> Forall answered (c_log s') ->
  ~ In Panic rs /\ (forall y, ~ In (Err (CHandler y)) rs) /\ length rs = length vs /\
  exists reqs' c' lost' pend', cinv src s' reqs' c' lost' pend'.
Proof.
  induction vs as [|v vs IH]; intros src s reqs c lost pend s' rs I P An; cbn [conn_polls] in P.
  - injection P as <- <-. split; [auto|]. split; [auto|]. split; [reflexivity|]. eauto 10.
  - destruct (conn_poll H v s) as [s1 r1] eqn:P1.
    assert (An1 : Forall answered (c_log s1)).
    { destruct r1 as [u|y|].
      - destruct (conn_polls H vs s1) as [s2 rs2] eqn:P2. injection P as <- <-.
        destruct (polls_log _ _ _ _ P2) as (l & L). rewrite L in An. now apply Forall_app in An.
      - destruct (conn_polls H vs s1) as [s2 rs2] eqn:P2. injection P as <- <-.
        destruct (polls_log _ _ _ _ P2) as (l & L). rewrite L in An. now apply Forall_app in An.
      - now injection P as <- <-. }
    destruct (poll_inv SH _ _ _ _ _ _ _ _ _ I P1 An1) as (NP & NH & q1 & c1 & lo1 & p1 & I1).
    destruct r1 as [u|y|]; [| |congruence].
    + destruct (conn_polls H vs s1) as [s2 rs2] eqn:P2. injection P as <- <-.
      destruct (IH _ _ _ _ _ _ _ _ I1 P2 An) as (A & B & Len & C). split; [|split; [|split; [cbn; congruence|exact C]]].
      * intros [Z|Z]; [discriminate|auto].
      * intros y [Z|Z]; [discriminate|eapply B; eauto].
    + destruct (conn_polls H vs s1) as [s2 rs2] eqn:P2. injection P as <- <-.
      destruct (IH _ _ _ _ _ _ _ _ I1 P2 An) as (A & B & Len & C). split; [|split; [|split; [cbn; congruence|exact C]]].
      * intros [Z|Z]; [discriminate|auto].
      * intros y' [Z|Z]; [congruence|eapply B; eauto].
Qed.

(** Whatever the socket does and however the polls are timed: as long as the application answers
    every request, the requests it was given are the first ones of the stream, each once and in
    order, with their own file descriptors; the bytes written are their responses in the
    same order, the last one perhaps not yet completely; and the connection does not panic. *)
Theorem C37_in_order_partial : sane H -> forall vs src w s rs,
  conn_polls H vs (cst_start src w) = (s, rs) -> Forall answered (c_log s) ->
  ~ In Panic rs /\
  exists reqs rest pending,
    src = concat reqs ++ rest /\ Forall2 is_request reqs (c_log s) /\ Forall (called H) (c_log s) /\
    c_out s ++ pending = concat (map frame (answers (c_log s))) /\
    (pending = [] \/
     exists before m part, answers (c_log s) = before ++ [m] /\ frame m = part ++ pending).
Proof.
  intros SH vs src w s rs P An.
  destruct (polls_inv SH _ _ _ _ _ _ _ _ _ (start_inv src w) P An) as (NP & _ & _ & q & c & lo & p & I).
  split; [exact NP|]. exists q, (c ++ lo ++ c_in s), p. split; [apply I|]. split; [apply I|].
  split; [apply I|]. split; apply I.
Qed.
End Runs.
Print Assumptions C37_one_call.
Print Assumptions C37_in_order_partial.

(** * Progress *)

(** Events that do not stop the transfer: a call that takes or gives at least one byte, or an interruption. *)
Definition accepting (v : wr_ev) : bool := match v with Accept (S _) => true | _ => false end.
Definition good_write (v : wr_ev) : bool := match v with Accept (S _) | WFail KInterrupted => true | _ => false end.
Definition delivering (v : rv_ev) : bool := match v with VRead (Give (S _)) => true | _ => false end.
Definition good_read (v : rv_ev) : bool := match v with VRead (Give (S _)) | VRead (RFail KInterrupted) => true | _ => false end.

Lemma flush_all E vs : forall e pend e' out r, eok e pend -> pend <> [] ->
  forallb good_write vs = true -> length pend <= length (filter accepting vs) ->
  flush_loop (E := E) vs e = (e', out, r) -> r = Ok (Some tt).
Proof.
  induction vs as [|v vs IH]; intros e pend e' out r K N G L F; cbn [flush_loop] in F.
  - destruct pend; [congruence|]. cbn [filter length] in L. lia.
  - cbn [forallb] in G. apply Bool.andb_true_iff in G. destruct G as (Gv & G).
    destruct (write_ok e pend v K) as (_ & Wr). specialize (Wr N). destruct v as [[|k]|[]]; try discriminate Gv.
    + destruct Wr as (e1 & o & K1 & Eo & _ & Po & _ & Wr). rewrite Wr in F. specialize (Po ltac:(lia)).
      pose proof (skipn_length (length o) pend) as Ls.
      destruct (skipn (length o) pend) as [|b p] eqn:Sk.
      * destruct (zeroize_ok e1) as (e2 & Z & _). rewrite Z in F. destruct (length o); now injection F.
      * destruct (length o) as [|n] eqn:Lo; [lia|].
        destruct (flush_loop vs e1) as [[e2 o2] r2] eqn:F2. injection F as <- <- <-.
        eapply (IH _ _ _ _ _ K1 ltac:(discriminate) G); [|exact F2].
        cbn [filter accepting length] in L |- *. cbn [length] in Ls. lia.
    + rewrite Wr in F. destruct (flush_loop vs e) as [[e2 o2] r2] eqn:F2. injection F as <- <- <-.
      exact (IH _ _ _ _ _ K N G L F2).
Qed.

Lemma recv_frame E m (Lm : length m <= BUFFER) vs : forall x c l rest, reading x c -> x_bad x = false ->
  frame m = sbytes (c ++ l) -> l <> [] -> forallb good_read vs = true -> length l <= length (filter delivering vs) ->
  exists x', recv_loop (E := E) vs x (l ++ rest) = (x', rest, Ok (Some tt)) /\ reading x' (c ++ l) /\
    x_enc x' = x_enc x /\ x_bad x' = false.
Proof.
  assert (B : (N.of_nat (length m) < 2 ^ 64)%N).
  { assert (BF : (N.of_nat BUFFER < 2 ^ 64)%N) by (vm_compute; reflexivity). lia. }
  induction vs as [|v vs IH]; intros x c l rest K Bd Fr Nl G L.
  - destruct l; [congruence|]. cbn [filter length] in L. lia.
  - cbn [forallb] in G. apply Bool.andb_true_iff in G. destruct G as (Gv & G). cbn [recv_loop].
    pose proof (conn_read_ok v x c (l ++ rest) K) as Q.
    rewrite sbytes_app in Fr.
    pose proof (frame_status m (sbytes c) (sbytes l) BUFFER B Lm Fr) as St.
    assert (Nb : status_of BUFFER (sbytes c) = Need) by (rewrite St; destruct l; [congruence|reflexivity]).
    rewrite Nb in Q.
    destruct v as [[[|k]|[]]|]; try discriminate Gv.
    + cbn zeta in Q. destruct Q as (x1 & K1 & E1 & B1 & Q). rewrite Q.
      pose proof (frame_missing m (sbytes c) (sbytes l) B Fr) as Mi. rewrite sbytes_length in Mi.
      pose proof (need_pos x c K Nb) as Po.
      assert (Hn : 0 < Nat.min (S k) (missing (sbytes c)) <= length l) by lia.
      set (n := Nat.min (S k) (missing (sbytes c))) in *. clearbody n.
      assert (Ep : firstn n (l ++ rest) = firstn n l).
      { rewrite firstn_app. replace (n - length l) with 0 by lia. now rewrite firstn_O, app_nil_r. }
      rewrite Ep in *.
      assert (Ln : length (firstn n l) = n) by (rewrite firstn_length; lia).
      rewrite Ln in *.
      assert (Sk : skipn n (l ++ rest) = skipn n l ++ rest).
      { rewrite skipn_app. now replace (n - length l) with 0 by lia. }
      rewrite Sk in *.
      assert (Cl : (c ++ firstn n l) ++ skipn n l = c ++ l) by (rewrite <- app_assoc; now rewrite firstn_skipn).
      assert (Fr2 : frame m = sbytes (c ++ firstn n l) ++ sbytes (skipn n l)).
      { rewrite <- sbytes_app, Cl, sbytes_app. exact Fr. }
      pose proof (frame_status m _ _ BUFFER B Lm Fr2) as St2.
      pose proof (skipn_length n l) as Ls.
      destruct (skipn n l) as [|b l'] eqn:Sl.
      * unfold settled. rewrite St2. cbn [sbytes map]. exists x1. cbn [List.app].
        rewrite app_nil_r in Cl. rewrite Cl in K1.
        split; [now destruct n|]. split; [exact K1|]. split; [exact E1|congruence].
      * unfold settled. rewrite St2. cbn [sbytes map]. destruct n as [|n']; [lia|].
        destruct (IH x1 (c ++ firstn (S n') l) (b :: l') rest K1 ltac:(congruence)) as (x2 & R2 & K2 & E2 & B2).
        -- rewrite Cl. now rewrite sbytes_app.
        -- discriminate.
        -- exact G.
        -- cbn [filter delivering length] in L |- *. cbn [length] in Ls. lia.
        -- exists x2. rewrite Cl in K2. split; [exact R2|]. split; [exact K2|]. split; [congruence|exact B2].
    + rewrite Q. apply IH; auto. now rewrite sbytes_app.
Qed.

Lemma reqs_prefix {W E} (l : list (entry W E)) : forall a b ra rb, Forall2 is_request a l -> Forall2 is_request b l ->
  concat a ++ ra = concat b ++ rb -> concat a = concat b /\ ra = rb.
Proof.
  induction l as [|en l IH]; intros a b ra rb Fa Fb Q; inversion Fa; inversion Fb; subst; [auto|].
  cbn [concat] in *. rewrite <- !app_assoc in Q.
  match goal with A : is_request ?p en, B : is_request ?q en |- _ =>
    assert (Lpq : length p = length q) by (rewrite <- (sbytes_length p), <- (sbytes_length q);
      destruct A as (-> & _); destruct B as (-> & _); reflexivity);
    assert (p = q) as -> end.
  { match goal with Q : ?p ++ ?r = ?q ++ ?t |- ?p = ?q =>
      apply (f_equal (firstn (length p))) in Q; rewrite firstn_app, Nat.sub_diag, firstn_O, app_nil_r, firstn_all in Q;
      rewrite Lpq, firstn_app, Nat.sub_diag, firstn_O, app_nil_r, firstn_all in Q; exact Q end. }
  apply app_inv_head in Q. destruct (IH l0 l1 ra rb) as (E1 & E2); [assumption|assumption|exact Q|]. split; [now rewrite E1|exact E2].
Qed.

(** If the next request of the stream is complete and fits, and the socket takes the pending
    response and delivers the request, then the next poll gives it to the application. *)
Theorem C37_progress : forall W E (H : bytes -> list fdesc -> bytes -> W -> W * list fdesc * bytes * res E nat),
  sane H -> forall vs src w s rs reqs next rest m v,
  conn_polls H vs (cst_start src w) = (s, rs) -> Forall answered (c_log s) -> x_bad (c_conn s) = false ->
  src = concat reqs ++ next ++ rest -> Forall2 is_request reqs (c_log s) ->
  sbytes next = frame m -> length m <= 4096 ->
  forallb good_write (pe_flush v) = true -> 8 + 4096 <= length (filter accepting (pe_flush v)) ->
  forallb good_read (pe_recv v) = true -> length next <= length (filter delivering (pe_recv v)) ->
  exists en, c_log (fst (conn_poll H v s)) = c_log s ++ [en] /\ is_request next en /\ c_in (fst (conn_poll H v s)) = rest.
Proof.
  intros W E H SH vs src w s rs reqs next rest m v P An Bd Src Rq Nx Lm Gw Lw Gr Lr.
  destruct (polls_inv H SH _ _ _ _ _ _ _ _ _ (start_inv H src w) P An) as (_ & _ & _ & q & c & lo & pend & I).
  pose proof (i_src _ _ _ _ _ _ _ I) as S0. rewrite (i_lost _ _ _ _ _ _ _ I Bd) in S0. cbn [List.app] in S0.
  rewrite Src in S0. apply (reqs_prefix _ _ _ _ _ Rq (i_reqs _ _ _ _ _ _ _ I)) in S0. destruct S0 as (_ & S0).
  pose proof (i_reading _ _ _ _ _ _ _ I) as Rd.
  assert (BE : 4096 = BUFFER) by reflexivity. rewrite BE in *.
  assert (BF : (N.of_nat BUFFER < 2 ^ 64)%N) by (vm_compute; reflexivity).
  assert (Lc : length c < length next).
  { destruct (le_lt_dec (length next) (length c)) as [Le|Lt]; [exfalso|exact Lt].
    assert (Cn : c = next ++ skipn (length next) c).
    { apply (f_equal (firstn (length next))) in S0.
      rewrite firstn_app, Nat.sub_diag, firstn_O, app_nil_r, firstn_all in S0.
      rewrite firstn_app in S0. replace (length next - length c) with 0 in S0 by lia.
      rewrite firstn_O, app_nil_r in S0. rewrite S0 at 1. symmetry. apply firstn_skipn. }
    set (more := skipn (length next) c) in *.
    assert (Sc : sbytes c = frame m ++ sbytes more) by (rewrite Cn at 1; rewrite sbytes_app, Nx; reflexivity).
    pose proof (dk_sz _ _ _ (proj1 Rd)) as Sz.
    assert (An1 : announced (sbytes c) = N.of_nat (length m)).
    { rewrite Sc, announced_app by (rewrite frame_length; lia).
      apply (frame_announced m (frame m)); [lia|rewrite frame_length; lia|]. exists []. now rewrite app_nil_r. }
    rewrite An1 in Sz. rewrite Sc, app_length, frame_length, sbytes_length in Sz.
    assert (Mz : length more = 0) by (specialize (Sz ltac:(lia)); lia).
    destruct more; [|discriminate Mz]. cbn [sbytes map] in Sc. rewrite app_nil_r in Sc.
    pose proof (i_settled _ _ _ _ _ _ _ I) as Se. unfold settled in Se. rewrite Sc in Se.
    rewrite (frame_status m (frame m) [] BUFFER) in Se; [discriminate Se|lia|exact Lm|now rewrite app_nil_r]. }
  set (l := skipn (length c) next).
  assert (Nl : next = c ++ l).
  { pose proof (f_equal (firstn (length c)) S0) as Q.
    rewrite firstn_app in Q. replace (length c - length next) with 0 in Q by lia.
    rewrite firstn_O, app_nil_r in Q.
    rewrite firstn_app, Nat.sub_diag, firstn_O, app_nil_r, firstn_all in Q.
    unfold l. rewrite <- (firstn_skipn (length c) next) at 1. now rewrite Q. }
  assert (In0 : c_in s = l ++ rest).
  { rewrite Nl, <- app_assoc in S0. apply app_inv_head in S0. auto. }
  assert (Nz : l <> []) by (intros Z; rewrite Nl, Z, app_nil_r in Lc; lia).
  unfold conn_poll.
  destruct (flush_write_buffer (pe_flush v) (c_conn s)) as [[x o1] r1] eqn:F1.
  assert (R1 : r1 = Ok (Some tt)).
  { unfold flush_write_buffer in F1. rewrite (exhausted_ok _ _ (i_enc _ _ _ _ _ _ _ I)) in F1.
    destruct pend as [|b p]; [now injection F1|].
    destruct (flush_loop (pe_flush v) (x_enc (c_conn s))) as [[e o] r0] eqn:L. injection F1 as <- <- <-.
    eapply flush_all; [apply I|discriminate|exact Gw| |exact L].
    pose proof (pend_length _ _ (i_enc _ _ _ _ _ _ _ I)) as Lp. pose proof (ek_l _ _ (i_enc _ _ _ _ _ _ _ I)) as Lk.
    rewrite (i_buf _ _ _ _ _ _ _ I) in Lk. lia. }
  destruct (flush_ok _ _ _ _ _ _ _ (i_enc _ _ _ _ _ _ _ I) F1) as (l1 & P1 & K1 & L1 & D1 & Fd1 & B1 & Q1).
  subst r1. subst l1.
  assert (Rd1 : reading x c) by (unfold reading; rewrite D1, Fd1; exact Rd).
  rewrite In0. unfold conn_recv. rewrite (exhausted_ok _ _ K1), B1, Bd. cbn [negb orb].
  destruct (recv_frame E m Lm (pe_recv v) x c l rest Rd1 ltac:(congruence)) as (x1 & Rc & Rd2 & E2 & B2).
  - now rewrite <- Nl.
  - exact Nz.
  - exact Gr.
  - rewrite Nl, app_length in Lr. lia.
  - rewrite Rc. rewrite <- Nl in Rd2.
    assert (St : status_of BUFFER (sbytes next) = Done m).
    { rewrite Nx. rewrite (frame_status m (frame m) [] BUFFER); [reflexivity|lia|exact Lm|now rewrite app_nil_r]. }
    unfold handle_incoming. rewrite E2, (exhausted_ok _ _ K1), (message_ok _ _ _ (proj1 Rd2)), St.
    assert (Fd : is_request next {| en_req := m; en_fds := x_fds x1; en_before := w; en_after := w; en_answer := @Panic E bytes |})
      by (split; [exact Nx|exact (proj2 Rd2)]).
    destruct (H m (x_fds x1) (e_buf (x_enc x)) (pe_app v (c_world s))) as [[[w' f'] b'] [n|y|]].
    + destruct (restart_with _ _) as [e' [u|y|]].
      * destruct (flush_write_buffer (pe_begin v) _) as [[x3 o2] [r4|y|]]; cbn [fst c_log c_in];
          eexists; split; [reflexivity|auto|reflexivity|auto|reflexivity|auto].
      * cbn [fst c_log c_in]. eexists; split; [reflexivity|auto].
      * cbn [fst c_log c_in]. eexists; split; [reflexivity|auto].
    + cbn [fst c_log c_in]. eexists; split; [reflexivity|auto].
    + cbn [fst c_log c_in]. eexists; split; [reflexivity|auto].
Qed.
Print Assumptions C37_progress.

(** The handler of the server answers into its buffer. *)
Lemma api_sane P : sane (api_call P).
Proof.
  intros req fds buf w w' fds' buf' r. unfold api_call.
  destruct (handle_message P (fst w) req fds buf (snd w)) as [[[w1 f1] b1] r1] eqn:Hm.
  intros Z. injection Z as _ _ <- <-. revert Hm. unfold handle_message.
  destruct (parse_from_prefix Req req) as [[k body]|] eqn:Pr.
  2:{ intros Z. injection Z as _ _ <- <-. split; [reflexivity|discriminate]. }
  unfold zk_prefix. destruct (message_size Resp k <=? length buf) eqn:L.
  2:{ intros Z. injection Z as _ _ <- <-. split; [reflexivity|discriminate]. }
  apply Nat.leb_le in L. rewrite size_code in *.
  assert (L1 : length (splice 0 (le_enc 16 (raw_of Resp k)) buf) = length buf).
  { apply splice_length. rewrite le_enc_length. lia. }
  generalize dependent (splice 0 (le_enc 16 (raw_of Resp k)) buf). intros b0 L1.
  destruct (handle P (fst w) k (skipn 16 body) fds (snd w)) as [[w2 f2] [p|y|]] eqn:Hh.
  - intros Z. injection Z as _ _ <- <-.
    assert (Lp : length p = payload_len Resp k).
    { apply prefix_parse in Pr. destruct Pr as (q & rest & _ & Lq & ->).
      rewrite skipn_app, skipn_all2 in Hh by (rewrite code_length; lia).
      rewrite code_length, Nat.sub_diag in Hh. cbn [List.app skipn] in Hh.
      exact (proj2 (handle_done _ _ _ _ _ _ _ _ _ Lq Hh)). }
    split; [rewrite splice_length; [exact L1|]; rewrite L1, Lp; lia|]. intros n Hn.
    injection Hn as <-. exact L.
  - intros Z. injection Z as _ _ <- <-. split; [exact L1|discriminate].
  - intros Z. injection Z as _ _ <- <-. split; [exact L1|discriminate].
Qed.

(** The same for the server's own handler: what it answers is, by C35, the response to that request. *)
Theorem C37_api_partial : forall P vs src w s rs,
  conn_polls (api_call P) vs (cst_start src w) = (s, rs) -> Forall answered (c_log s) ->
  ~ In Panic rs /\
  exists reqs rest pending,
    src = concat reqs ++ rest /\ Forall2 is_request reqs (c_log s) /\
    c_out s ++ pending = concat (map frame (answers (c_log s))) /\
    (pending = [] \/ exists before m part, answers (c_log s) = before ++ [m] /\ frame m = part ++ pending) /\
    Forall (fun en => exists k p q, starts_with Req k p (en_req en) /\ en_answer en = Ok (code Resp k ++ q) /\
                        fst (en_after en) = fst (en_before en) /\
                        done P (fst (en_before en)) (en_fds en) (snd (en_before en)) k p (snd (en_after en)) q) (c_log s).
Proof.
  intros P vs src w s rs Po An.
  destruct (C37_in_order_partial _ (api_sane P) vs src w s rs Po An) as (NP & reqs & rest & pend & A & B & C & D & F).
  split; [exact NP|]. exists reqs, rest, pend. split; [exact A|]. split; [exact B|]. split; [exact D|]. split; [exact F|].
  eapply Forall_impl; [|exact C]. intros en (buf & fds' & buf' & n & Lb & Hc & Ea).
  unfold api_call in Hc.
  destruct (handle_message P (fst (en_before en)) (en_req en) (en_fds en) buf (snd (en_before en))) as [[[w1 f1] b1] r1] eqn:Hm.
  injection Hc as Hw <- <- ->.
  destruct (parse_from_prefix Req (en_req en)) as [[k body]|] eqn:Pr.
  2:{ unfold handle_message in Hm. rewrite Pr in Hm. discriminate Hm. }
  apply C35_parsed_iff in Pr. destruct Pr as (p & St & _).
  destruct (C35_answered _ _ _ _ _ _ _ _ _ _ _ _ St Hm) as (q & Dn & Lq & Hn & Ln & Hb). exists k, p, q.
  split; [exact St|]. rewrite Ea, Hb, <- Hw. cbn [fst snd]. split; [|auto].
  f_equal. rewrite app_assoc, firstn_app, firstn_all2 by (rewrite app_length, code_length; lia).
  replace (n - length (code Resp k ++ q)) with 0 by (rewrite app_length, code_length; lia).
  now rewrite firstn_O, app_nil_r.
Qed.
Print Assumptions C37_api_partial.

(** * C66: connections that have gone wrong *)

(** The outcome of a poll, as the connection manager sees it (AppIo.v). *)
Definition seen {W E} (p : cstate W E * res (conn_err E) unit) : polled :=
  match p with
  | (s, Ok _) => if should_close (c_conn s) then PolledClose else Polled
  | (_, _) => PolledErr
  end.

Section Gone.
Context {W E : Type} (H : bytes -> list fdesc -> bytes -> W -> W * list fdesc * bytes * res E nat).

Lemma should_close_ok (s : cstate W E) src reqs c lost pend : cinv H src s reqs c lost pend ->
  should_close (c_conn s) = x_bad (c_conn s) && match pend with [] => true | _ => false end.
Proof. intros I. unfold should_close. rewrite (exhausted_ok _ _ (i_enc _ _ _ _ _ _ _ I)). reflexivity. Qed.

Lemma bad_poll v (s : cstate W E) src reqs c lost pend : cinv H src s reqs c lost pend -> x_bad (c_conn s) = true ->
  exists s' r, conn_poll H v s = (s', r) /\ c_log s' = c_log s /\ c_in s' = c_in s /\ x_bad (c_conn s') = true.
Proof.
  intros I B. unfold conn_poll.
  destruct (flush_write_buffer (pe_flush v) (c_conn s)) as [[x o1] r1] eqn:F1.
  destruct (flush_ok _ _ _ _ _ _ _ (i_enc _ _ _ _ _ _ _ I) F1) as (l1 & P1 & K1 & L1 & D1 & Fd1 & B1 & Q1).
  destruct r1 as [[u|]|y|]; [|eexists _, _; split; [reflexivity|]; cbn; rewrite app_nil_r; split; [auto|]; split; [auto|]; congruence..].
  unfold conn_recv. rewrite (exhausted_ok _ _ K1), B1, B. rewrite Bool.orb_true_r.
  eexists _, _; split; [reflexivity|]; cbn; rewrite app_nil_r; split; [auto|]; split; [auto|]; congruence.
Qed.

(** A connection on which a message is announced that does not fit, or reading from which fails, is
    given no further requests, and it is closed by the first poll after which no response is pending. *)
Theorem C66_broken_is_closed_partial : sane H -> forall vs src w s rs v,
  conn_polls H vs (cst_start src w) = (s, rs) -> Forall answered (c_log s) -> x_bad (c_conn s) = true ->
  let s' := fst (conn_poll H v s) in
  c_log s' = c_log s /\ c_in s' = c_in s /\ x_bad (c_conn s') = true /\
  (c_out s' = concat (map frame (answers (c_log s'))) -> snd (conn_poll H v s) = Ok tt ->
   seen (conn_poll H v s) = PolledClose).
Proof.
  intros SH vs src w s rs v P An B.
  destruct (polls_inv H SH _ _ _ _ _ _ _ _ _ (start_inv H src w) P An) as (_ & _ & _ & q & c & lo & pend & I).
  destruct (bad_poll v s _ _ _ _ _ I B) as (s' & r & P1 & L1 & I1 & B1).
  rewrite P1. cbn [fst snd]. split; [exact L1|]. split; [exact I1|]. split; [exact B1|].
  intros Out ->. destruct (poll_inv H SH _ _ _ _ _ _ _ _ _ I P1) as (_ & _ & q' & c' & lo' & pend' & I').
  { rewrite L1. exact An. }
  cbn [seen]. rewrite (should_close_ok _ _ _ _ _ _ I'), B1.
  pose proof (i_out _ _ _ _ _ _ _ I') as O'. rewrite <- Out in O'.
  rewrite <- (app_nil_r (c_out s')) in O' at 2. apply app_inv_head in O'. subst pend'. reflexivity.
Qed.

(** ** A request that the application rejects *)

Record stuck (m : bytes) (s : cstate W E) : Prop := {
  k_dec : exists c, dok BUFFER (x_dec (c_conn s)) c /\ status_of BUFFER c = Done m;
  k_enc : exhausted (x_enc (c_conn s)) = Ok true;
  k_hdr : length (e_header (x_enc (c_conn s))) = 8 /\ message_len (x_enc (c_conn s)) = 0%N /\ e_pos (x_enc (c_conn s)) = 8;
  k_bad : x_bad (c_conn s) = false
}.

Lemma empty_exhausted b h : length h = 8 -> le_dec h = 0%N ->
  exhausted {| e_buf := b; e_header := h; e_pos := 8 |} = Ok true.
Proof.
  intros L Z. rewrite (exhausted_ok _ []); [reflexivity|].
  constructor; unfold wire_of, message_len; cbn [e_header e_buf e_pos]; rewrite ?Z; auto; try lia.
  rewrite skipn_app, skipn_all2 by lia. rewrite L. reflexivity.
Qed.

Lemma stuck_poll m v s : (forall fds buf w, exists w' fds' buf' y, H m fds buf w = (w', fds', buf', Err y)) ->
  stuck m s ->
  exists s' en y, conn_poll H v s = (s', Err (CHandler y)) /\ stuck m s' /\ c_out s' = c_out s /\ c_in s' = c_in s /\
    c_log s' = c_log s ++ [en] /\ en_req en = m.
Proof.
  intros Rej S. destruct (k_dec _ _ S) as (c & K & St). pose proof (k_enc _ _ S) as Ex.
  unfold conn_poll, flush_write_buffer. rewrite Ex. unfold conn_recv. rewrite Ex, (k_bad _ _ S). cbn [negb orb].
  assert (Rd : forall v0 x, dok BUFFER (x_dec x) c -> conn_read v0 x (c_in s) = (x, c_in s, Ok (0, Some m))).
  { intros v0 x Kx. unfold conn_read. destruct v0 as [e|k].
    - pose proof (read_ok BUFFER (x_dec x) c e (sbytes (c_in s)) Kx) as R. rewrite St in R.
      rewrite (R : read_from_stdio _ _ _ = _). rewrite sbytes_length, Nat.sub_diag. cbn [firstn skipn].
      change (sfds []) with (@nil fdesc). rewrite firstn_nil, app_nil_r. now destruct x.
    - pose proof (read_ok BUFFER (x_dec x) c (RFail KOther) (sbytes (c_in s)) Kx) as R. rewrite St in R. now rewrite R. }
  assert (Rl : recv_loop (E := E) (pe_recv v) (c_conn s) (c_in s) = (c_conn s, c_in s, Ok (Some tt))).
  { destruct (pe_recv v) as [|v0 vs]; cbn [recv_loop]; rewrite Rd by exact K; reflexivity. }
  rewrite Rl. unfold handle_incoming. rewrite Ex, (message_ok _ _ _ K), St.
  destruct (Rej (x_fds (c_conn s)) (e_buf (x_enc (c_conn s))) (pe_app v (c_world s))) as (w' & f' & b' & y & Hc).
  rewrite Hc. destruct (k_hdr _ _ S) as (Hl & Hz & Hp). eexists _, _, y. split; [reflexivity|].
  cbn [c_conn c_out c_in c_log]. rewrite app_nil_r. split; [|auto].
  constructor; cbn [c_conn x_dec x_enc x_bad e_header e_buf e_pos].
  - exists c. auto.
  - rewrite Hp. apply empty_exhausted; auto.
  - unfold message_len in *. cbn [e_header]. auto.
  - apply S.
Qed.

Lemma stuck_polls m : (forall fds buf w, exists w' fds' buf' y, H m fds buf w = (w', fds', buf', Err y)) ->
  forall vs s, stuck m s ->
  exists s' rs ens, conn_polls H vs s = (s', rs) /\ stuck m s' /\ c_out s' = c_out s /\ c_in s' = c_in s /\
    length rs = length vs /\ Forall (fun r => exists y, r = Err (CHandler y)) rs /\
    c_log s' = c_log s ++ ens /\ Forall (fun en => en_req en = m) ens.
Proof.
  intros Rej. induction vs as [|v vs IH]; intros s S; cbn [conn_polls].
  - exists s, [], []. rewrite app_nil_r. repeat (split; [auto|]). constructor.
  - destruct (stuck_poll m v s Rej S) as (s1 & en & y & P1 & S1 & O1 & I1 & L1 & M1). rewrite P1.
    destruct (IH s1 S1) as (s2 & rs & ens & P2 & S2 & O2 & I2 & Len & R2 & L2 & M2). rewrite P2.
    exists s2, (Err (CHandler y) :: rs), (en :: ens). split; [reflexivity|]. split; [exact S2|].
    split; [congruence|]. split; [congruence|]. split; [cbn; congruence|].
    split; [constructor; eauto|]. split; [rewrite L2, L1, <- app_assoc; reflexivity|]. constructor; auto.
Qed.
End Gone.

(** A request that the application rejects blocks its connection for good: whatever the socket
    does, whatever follows in the stream and whatever the rest of the program does, every further
    poll is an error and gives the application the same request again; nothing more is read or
    written, and the connection is not closed. *)
Theorem C37_rejected_refuted : forall W E (H : bytes -> list fdesc -> bytes -> W -> W * list fdesc * bytes * res E nat) m,
  length m <= 4096 -> (forall fds buf w, exists w' fds' buf' y, H m fds buf w = (w', fds', buf', Err y)) ->
  forall next rest w v vs,
  sbytes next = frame m -> forallb good_read (pe_recv v) = true -> length next <= length (filter delivering (pe_recv v)) ->
  let s := fst (conn_polls H (v :: vs) (cst_start (next ++ rest) w)) in
  let rs := snd (conn_polls H (v :: vs) (cst_start (next ++ rest) w)) in
  length rs = S (length vs) /\ Forall (fun r => exists y, r = Err (CHandler y)) rs /\
  c_in s = rest /\ c_out s = [] /\ Forall (fun en => en_req en = m) (c_log s) /\
  should_close (c_conn s) = false.
Proof.
  intros W E H m Lm Rej next rest w v vs Nx Gr Lr. cbn zeta. cbn [conn_polls].
  pose proof (start_inv H (next ++ rest) w) as I.
  assert (Fst : exists s1 y en, conn_poll H v (cst_start (next ++ rest) w) = (s1, Err (CHandler y)) /\ stuck m s1 /\
    c_in s1 = rest /\ c_out s1 = [] /\ c_log s1 = [en] /\ en_req en = m).
  { unfold conn_poll, flush_write_buffer.
    pose proof (exhausted_ok _ _ (i_enc _ _ _ _ _ _ _ I)) as Ex. rewrite Ex. unfold conn_recv. rewrite Ex.
    pose proof (i_reading _ _ _ _ _ _ _ I) as Rd.
    assert (Bd : x_bad (c_conn (cst_start (E := E) (next ++ rest) w)) = false) by reflexivity. rewrite Bd.
    assert (Ne : next <> []).
    { intros ->. apply (f_equal (@length byte)) in Nx. unfold frame in Nx. rewrite app_length, le_enc_length in Nx. discriminate Nx. }
    destruct (recv_frame E m Lm (pe_recv v) _ [] next rest Rd Bd (eq_sym Nx) Ne Gr Lr) as (x1 & Rc & Rd1 & En1 & B1).
    cbn [negb orb]. change (c_in (cst_start (next ++ rest) w)) with (next ++ rest). rewrite Rc.
    assert (BF : (N.of_nat BUFFER < 2 ^ 64)%N) by (vm_compute; reflexivity).
    assert (St : status_of BUFFER (sbytes next) = Done m).
    { assert (BE : 4096 = BUFFER) by reflexivity. rewrite BE in Lm.
      rewrite Nx. rewrite (frame_status m (frame m) [] BUFFER); [reflexivity|lia|exact Lm|now rewrite app_nil_r]. }
    cbn [List.app] in Rd1. unfold handle_incoming. rewrite En1, Ex, (message_ok _ _ _ (proj1 Rd1)), St.
    destruct (Rej (x_fds x1) (e_buf (x_enc (c_conn (cst_start (E := E) (next ++ rest) w)))) (pe_app v w)) as (w' & f' & b' & y & Hc).
    change (c_world (cst_start (next ++ rest) w)) with w. rewrite Hc.
    eexists _, y, _. split; [reflexivity|]. cbn [c_in c_out c_log c_conn].
    split; [|split; [reflexivity|]; split; [reflexivity|]; split; reflexivity].
    constructor; cbn [c_conn x_dec x_enc x_bad e_header e_pos].
    - exists (sbytes next). split; [exact (proj1 Rd1)|exact St].
    - apply empty_exhausted; reflexivity.
    - repeat split.
    - exact B1. }
  destruct Fst as (s1 & y & en & P1 & S1 & I1 & O1 & L1 & M1). rewrite P1.
  destruct (stuck_polls H m Rej vs s1 S1) as (s2 & rs & ens & P2 & S2 & O2 & I2 & Len & R2 & L2 & M2).
  rewrite P2. cbn [fst snd]. split; [cbn [length]; congruence|]. split; [constructor; eauto|].
  split; [congruence|]. split; [congruence|]. split; [rewrite L2, L1; constructor; auto|].
  unfold should_close. now rewrite (k_bad _ _ S2).
Qed.
Print Assumptions C37_rejected_refuted.

(** The server rejects a request of unknown type like this; a ping that follows it is never handled. *)
Definition unknown : bytes := repeat x00 16.
Definition plain (l : bytes) : stream := map (fun b => (b, [])) l.

Lemma unknown_rejected P fds buf w :
  exists w' fds' buf' y, api_call P unknown fds buf w = (w', fds', buf', Err y).
Proof.
  unfold api_call. rewrite C35_rejected; [eauto 10|].
  intros k p (L & rest & Z). apply (f_equal (firstn 16)) in Z.
  rewrite (firstn_app _ (code Req k)), code_length, Nat.sub_diag, firstn_O, app_nil_r in Z.
  rewrite (firstn_all2 (code Req k)) in Z by (rewrite code_length; lia).
  destruct k; discriminate Z.
Qed.

Theorem C37_later_request_refuted : forall P w payload vs, length payload = 256 ->
  exists v, let src := plain (frame unknown) ++ plain (frame (message Req Ping payload)) in
  let s := fst (conn_polls (api_call P) (v :: vs) (cst_start src w)) in
  let rs := snd (conn_polls (api_call P) (v :: vs) (cst_start src w)) in
  Forall (fun r => exists y, r = Err (CHandler y)) rs /\
  (forall en, In en (c_log s) -> en_req en <> message Req Ping payload) /\ c_out s = [].
Proof.
  intros P w payload vs Lp.
  exists {| pe_app := fun w => w; pe_flush := []; pe_recv := repeat (VRead (Give 4096)) 24; pe_begin := [] |}.
  cbn zeta.
  destruct (C37_rejected_refuted _ _ (api_call P) unknown ltac:(apply Nat.leb_le; vm_compute; reflexivity)
    (unknown_rejected P) (plain (frame unknown)) (plain (frame (message Req Ping payload))) w
    {| pe_app := fun w => w; pe_flush := []; pe_recv := repeat (VRead (Give 4096)) 24; pe_begin := [] |} vs)
    as (_ & A & _ & B & C & _).
  - vm_compute. reflexivity.
  - vm_compute. reflexivity.
  - apply Nat.leb_le. vm_compute. reflexivity.
  - split; [exact A|]. split; [|exact B]. intros en Hin Z. rewrite Forall_forall in C. specialize (C en Hin).
    rewrite Z in C. apply (f_equal (@length byte)) in C. unfold message in C.
    rewrite app_length, Lp in C. rewrite le_enc_length in C. discriminate C.
Qed.
Print Assumptions C37_later_request_refuted.

(** * Clients that have gone *)

Section Left.
Context {W E : Type} (H : bytes -> list fdesc -> bytes -> W -> W * list fdesc * bytes * res E nat).

(** A client that closes its connection before it has read its response: every write fails from
    then on, and so does every poll, while the connection is not closed. *)
Theorem C66_writer_gone_refuted : sane H -> forall k, k <> KInterrupted -> k <> KWouldBlock ->
  forall vs src w s rs,
  conn_polls H vs (cst_start src w) = (s, rs) -> Forall answered (c_log s) ->
  c_out s <> concat (map frame (answers (c_log s))) ->
  forall vs', Forall (fun v => exists more, pe_flush v = WFail k :: more) vs' ->
  let s' := fst (conn_polls H vs' s) in
  snd (conn_polls H vs' s) = repeat (Err (CWrite k)) (length vs') /\
  should_close (c_conn s') = false /\ c_log s' = c_log s /\ c_out s' = c_out s.
Proof.
  intros SH k Ki Kw vs src w s rs P An Pend. cbn zeta.
  destruct (polls_inv H SH _ _ _ _ _ _ _ _ _ (start_inv H src w) P An) as (_ & _ & _ & q & c & lo & pend & I).
  assert (Np : pend <> []).
  { intros ->. apply Pend. rewrite <- (i_out _ _ _ _ _ _ _ I). now rewrite app_nil_r. }
  pose proof (i_enc _ _ _ _ _ _ _ I) as K. clear P I rs.
  intros vs'. revert s An Pend K. induction vs' as [|v vs' IH]; intros s An Pend K Fl; cbn [conn_polls].
  - cbn [fst snd length repeat]. split; [reflexivity|]. split; [|auto].
    unfold should_close. rewrite (exhausted_ok _ _ K). destruct pend; [congruence|]. apply Bool.andb_false_r.
  - inversion Fl as [|? ? (more & Ev) Fl']. subst.
    assert (P1 : exists s1, conn_poll H v s = (s1, Err (CWrite k)) /\ c_conn s1 = c_conn s /\ c_log s1 = c_log s /\ c_out s1 = c_out s).
    { unfold conn_poll, flush_write_buffer. rewrite (exhausted_ok _ _ K), Ev.
      destruct pend as [|b pend]; [congruence|]. cbn [flush_loop].
      destruct (write_ok _ _ (WFail k) K) as (_ & Wr). rewrite (Wr Np).
      destruct k; try congruence; (eexists; split; [reflexivity|]; cbn [c_conn c_log c_out]; rewrite !app_nil_r;
        split; [destruct (c_conn s); reflexivity|auto]). }
    destruct P1 as (s1 & P1 & C1 & L1 & O1). rewrite P1.
    destruct (IH s1) as (A & B & C & D); [now rewrite L1|now rewrite L1, O1|now rewrite C1|exact Fl'|].
    destruct (conn_polls H vs' s1) as [s2 rs2]. cbn [fst snd] in *. cbn [length repeat].
    split; [now rewrite A|]. split; [exact B|]. split; congruence.
Qed.

(** A client that closes its connection and leaves nothing to write: reading from the socket gives no
    bytes and no error from then on, every poll succeeds, and the connection is not closed. *)
Definition no_failure (v : rv_ev) : bool :=
  match v with VRead (Give _) | VRead (RFail KInterrupted) | VRead (RFail KWouldBlock) => true | _ => false end.

Lemma quiet vs : forall x c x' r, reading x c -> x_bad x = false -> status_of BUFFER (sbytes c) = Need ->
  forallb no_failure vs = true -> recv_loop (E := E) vs x [] = (x', [], r) ->
  r = Ok None /\ reading x' c /\ x_bad x' = false /\ x_enc x' = x_enc x.
Proof.
  induction vs as [|v vs IH]; intros x c x' r Rd Bd St G R; cbn [recv_loop] in R.
  - pose proof (conn_read_ok (VRead (RFail KWouldBlock)) x c [] Rd) as Q. rewrite St in Q. rewrite Q in R.
    injection R as <- <-. auto.
  - cbn [forallb] in G. apply Bool.andb_true_iff in G. destruct G as (Gv & G).
    pose proof (conn_read_ok v x c [] Rd) as Q. rewrite St in Q. destruct v as [[k|[]]|k]; try discriminate Gv.
    + cbn zeta in Q. rewrite firstn_nil in Q. destruct Q as (x1 & Rd1 & E1 & B1 & Q). rewrite app_nil_r in *.
      rewrite Q in R. cbn [length skipn] in R. unfold settled in R. rewrite St in R. injection R as <- <-.
      split; [reflexivity|]. split; [exact Rd1|]. split; [congruence|exact E1].
    + rewrite Q in R. exact (IH _ _ _ _ Rd Bd St G R).
    + rewrite Q in R. injection R as <- <-. auto.
Qed.

Theorem C66_reader_gone_refuted : sane H -> forall vs src w s rs reqs,
  conn_polls H vs (cst_start src w) = (s, rs) -> Forall answered (c_log s) -> x_bad (c_conn s) = false ->
  src = concat reqs -> Forall2 is_request reqs (c_log s) -> c_out s = concat (map frame (answers (c_log s))) ->
  forall vs', Forall (fun v => forallb no_failure (pe_recv v) = true) vs' ->
  let s' := fst (conn_polls H vs' s) in
  snd (conn_polls H vs' s) = repeat (Ok tt) (length vs') /\
  should_close (c_conn s') = false /\ c_log s' = c_log s /\ c_out s' = c_out s.
Proof.
  intros SH vs src w s rs reqs P An Bd Src Rq Out. cbn zeta.
  destruct (polls_inv H SH _ _ _ _ _ _ _ _ _ (start_inv H src w) P An) as (_ & _ & _ & q & c & lo & pend & I).
  assert (pend = []) as ->.
  { pose proof (i_out _ _ _ _ _ _ _ I) as O. rewrite <- Out in O.
    rewrite <- (app_nil_r (c_out s)) in O at 2. now apply app_inv_head in O. }
  pose proof (i_src _ _ _ _ _ _ _ I) as S0. rewrite Src in S0. rewrite <- (app_nil_r (concat reqs)) in S0.
  apply (reqs_prefix _ _ _ _ _ Rq (i_reqs _ _ _ _ _ _ _ I)) in S0. destruct S0 as (_ & S0).
  symmetry in S0. apply app_eq_nil in S0. destruct S0 as (-> & S0). apply app_eq_nil in S0. destruct S0 as (_ & Ci).
  pose proof (i_enc _ _ _ _ _ _ _ I) as K. pose proof (i_reading _ _ _ _ _ _ _ I) as Rd. clear - Bd K Rd Ci.
  intros vs'. revert s Bd K Rd Ci. induction vs' as [|v vs' IH]; intros s Bd K Rd Ci Fl; cbn [conn_polls].
  - cbn [fst snd length repeat]. split; [reflexivity|]. split; [|auto]. unfold should_close. now rewrite Bd.
  - inversion Fl as [|? ? Gv Fl']. subst.
    assert (P1 : exists s1, conn_poll H v s = (s1, Ok tt) /\ x_bad (c_conn s1) = false /\ eok (x_enc (c_conn s1)) [] /\
      reading (c_conn s1) [] /\ c_in s1 = [] /\ c_log s1 = c_log s /\ c_out s1 = c_out s).
    { unfold conn_poll, flush_write_buffer. rewrite (exhausted_ok _ _ K). unfold conn_recv.
      rewrite (exhausted_ok _ _ K), Bd, Ci. cbn [negb orb].
      destruct (recv_loop (pe_recv v) (c_conn s) []) as [[x1 i] r] eqn:R.
      assert (i = []) as ->.
      { destruct (recv_loop_ok _ _ _ _ _ _ _ _ Rd Bd R) as (p & l & Z & _). symmetry in Z.
        apply app_eq_nil in Z. destruct Z as (_ & Z). now apply app_eq_nil in Z. }
      destruct (quiet _ _ _ _ _ Rd Bd ltac:(reflexivity) Gv R) as (-> & Rd1 & B1 & E1).
      eexists. split; [reflexivity|]. cbn [c_conn c_in c_log c_out]. rewrite !app_nil_r, E1. auto 10. }
    destruct P1 as (s1 & P1 & B1 & K1 & R1 & I1 & L1 & O1). rewrite P1.
    destruct (IH s1 B1 K1 R1 I1 Fl') as (A & B & C & D).
    destruct (conn_polls H vs' s1) as [s2 rs2]. cbn [fst snd] in *. cbn [length repeat].
    split; [now rewrite A|]. split; [exact B|]. split; congruence.
Qed.

(** Reading failed: the next poll closes the connection. *)
Theorem C66_read_error_closes : sane H -> forall vs src w s rs v k s1 v',
  conn_polls H vs (cst_start src w) = (s, rs) -> Forall answered (c_log s) ->
  conn_poll H v s = (s1, Err (CRead k)) ->
  c_log s1 = c_log s /\ seen (conn_poll H v' s1) = PolledClose.
Proof.
  intros SH vs src w s rs v k s1 v' P An P1.
  destruct (polls_inv H SH _ _ _ _ _ _ _ _ _ (start_inv H src w) P An) as (_ & _ & _ & q & c & lo & pend & I).
  assert (Q : c_log s1 = c_log s /\ x_bad (c_conn s1) = true /\ exhausted (x_enc (c_conn s1)) = Ok true).
  { unfold conn_poll in P1.
    destruct (flush_write_buffer (pe_flush v) (c_conn s)) as [[x o1] r1] eqn:F1.
    destruct (flush_ok _ _ _ _ _ _ _ (i_enc _ _ _ _ _ _ _ I) F1) as (l1 & Pd & K1 & L1 & D1 & Fd1 & B1 & Q1).
    destruct r1 as [[u|]|y|].
    2: discriminate P1.
    2:{ destruct Q1 as (_ & k' & -> & _). discriminate P1. }
    2: destruct Q1.
    subst l1. unfold conn_recv in P1. rewrite (exhausted_ok _ _ K1) in P1. cbn [negb orb] in P1.
    destruct (x_bad x) eqn:Bx; [discriminate P1|].
    destruct (recv_loop (pe_recv v) x (c_in s)) as [[x1 i] r2] eqn:R.
    assert (Rd : reading x c) by (unfold reading; rewrite D1, Fd1; exact (i_reading _ _ _ _ _ _ _ I)).
    destruct (recv_loop_ok _ _ _ _ _ _ _ _ Rd Bx R) as (p & l & _ & Rd2 & E2 & _ & R2).
    destruct r2 as [[u2|]|y|].
    - destruct R2 as (_ & m & Se). exfalso. revert P1. unfold handle_incoming.
      rewrite E2, (exhausted_ok _ _ K1), (message_ok _ _ _ (proj1 Rd2)), (proj1 (settled_done _ _) Se).
      destruct (H m (x_fds x1) (e_buf (x_enc x)) (pe_app v (c_world s))) as [[[w' f'] b'] rh] eqn:Hc.
      destruct rh as [n|y|]; try discriminate.
      destruct (SH _ _ _ _ _ _ _ _ Hc) as (Lb & Ln). specialize (Ln n eq_refl).
      pose proof (i_buf _ _ _ _ _ _ _ I) as Ib. assert (BF : (N.of_nat BUFFER < 2 ^ 64)%N) by (vm_compute; reflexivity).
      unfold restart_with. rewrite set_len_pos_ok by (rewrite ?Lb, ?L1; lia).
      match goal with |- context [flush_write_buffer (pe_begin v) ?X] => set (x2 := X) end.
      destruct (flush_write_buffer (pe_begin v) x2) as [[x3 o2] r4] eqn:F3.
      assert (Ke : exists p2, eok (x_enc x2) p2).
      { eexists. unfold x2; cbn [x_enc]. apply eok_fresh; rewrite ?Lb, ?L1; lia. }
      destruct Ke as (p2 & Ke). destruct (flush_ok _ _ _ _ _ _ _ Ke F3) as (l3 & _ & _ & _ & _ & _ & _ & R3).
      destruct r4 as [?|y|]; try discriminate. destruct R3 as (_ & k' & -> & _). discriminate.
    - discriminate P1.
    - destruct R2 as (_ & B2 & _). injection P1 as <- _. cbn [c_log c_conn]. rewrite app_nil_r, E2.
      split; [reflexivity|]. split; [exact B2|]. apply (exhausted_ok _ _ K1).
    - destruct R2. }
  destruct Q as (L & B & Ex). split; [exact L|]. unfold conn_poll, flush_write_buffer. rewrite Ex.
  unfold conn_recv. rewrite Ex, B. cbn [negb orb seen c_conn]. unfold should_close. now rewrite B, Ex.
Qed.

Lemma recv_big vs : forall x c l rest, reading x c -> x_bad x = false ->
  length (c ++ l) = 8 -> (N.of_nat BUFFER < announced (sbytes (c ++ l)))%N ->
  forallb good_read vs = true -> length l <= length (filter delivering vs) ->
  exists x', recv_loop (E := E) vs x (l ++ rest) = (x', rest, Ok None) /\ x_enc x' = x_enc x /\ x_bad x' = true.
Proof.
  induction vs as [|v vs IH]; intros x c l rest K Bd L8 Big G L; cbn [recv_loop].
  - destruct l; [|cbn [filter length] in L; lia]. rewrite app_nil_r in *.
    pose proof (conn_read_ok (VRead (RFail KWouldBlock)) x c rest K) as Q.
    assert (St : status_of BUFFER (sbytes c) = PLpe.Big).
    { unfold status_of. rewrite sbytes_length, L8. cbn [Nat.ltb Nat.leb]. apply N.ltb_lt in Big. now rewrite Big. }
    rewrite St in Q. cbn [List.app]. rewrite Q. exists (set_bad x). auto.
  - cbn [forallb] in G. apply Bool.andb_true_iff in G. destruct G as (Gv & G).
    pose proof (conn_read_ok v x c (l ++ rest) K) as Q.
    destruct l as [|b l].
    { rewrite app_nil_r in *.
      assert (St : status_of BUFFER (sbytes c) = PLpe.Big).
      { unfold status_of. rewrite sbytes_length, L8. cbn [Nat.ltb Nat.leb]. apply N.ltb_lt in Big. now rewrite Big. }
      rewrite St in Q. cbn [List.app] in *. rewrite Q. exists (set_bad x). auto. }
    assert (Lc : length c < 8) by (rewrite app_length in L8; cbn [length] in L8; lia).
    assert (St : status_of BUFFER (sbytes c) = Need).
    { unfold status_of. rewrite sbytes_length. apply Nat.ltb_lt in Lc. now rewrite Lc. }
    rewrite St in Q. destruct v as [[[|k]|[]]|]; try discriminate Gv.
    + cbn zeta in Q. destruct Q as (x1 & K1 & E1 & B1 & Q). rewrite Q.
      assert (Mi : missing (sbytes c) = 8 - length c).
      { unfold missing. rewrite sbytes_length. apply Nat.ltb_lt in Lc. now rewrite Lc. }
      assert (Hn : 0 < Nat.min (S k) (missing (sbytes c)) <= length (b :: l)).
      { rewrite app_length in L8. rewrite Mi. lia. }
      set (n := Nat.min (S k) (missing (sbytes c))) in *. clearbody n. set (bl := b :: l) in *. clearbody bl.
      assert (Ep : firstn n (bl ++ rest) = firstn n bl).
      { rewrite firstn_app. replace (n - length bl) with 0 by lia. now rewrite firstn_O, app_nil_r. }
      rewrite Ep in *.
      assert (Ln : length (firstn n bl) = n) by (rewrite firstn_length; lia).
      rewrite Ln in *.
      assert (Sk : skipn n (bl ++ rest) = skipn n bl ++ rest).
      { rewrite skipn_app. now replace (n - length bl) with 0 by lia. }
      rewrite Sk in *.
      assert (Cl : (c ++ firstn n bl) ++ skipn n bl = c ++ bl) by (rewrite <- app_assoc; now rewrite firstn_skipn).
      assert (Se : settled (c ++ firstn n bl) = None).
      { unfold settled, status_of. rewrite sbytes_length. destruct (Nat.ltb_spec (length (c ++ firstn n bl)) 8) as [X|X]; [reflexivity|].
        assert (firstn n bl = bl) as ->.
        { apply firstn_all2. rewrite !app_length in *. lia. }
        apply N.ltb_lt in Big. now rewrite Big. }
      rewrite Se. destruct n as [|n']; [lia|].
      destruct (IH x1 (c ++ firstn (S n') bl) (skipn (S n') bl) rest K1 ltac:(congruence)) as (x2 & R2 & E2 & B2).
      * now rewrite Cl.
      * now rewrite Cl.
      * exact G.
      * rewrite skipn_length. cbn [filter delivering length] in L |- *. lia.
      * exists x2. split; [exact R2|]. split; [congruence|exact B2].
    + rewrite Q. apply IH with (c := c); auto.
Qed.

(** A message that announces more than 4096 bytes: as soon as its header has been received, and all
    responses are written, the connection is closed; no request is made of it. *)
Theorem C66_oversized_closes : sane H -> forall vs src w s rs reqs hdr rest v,
  conn_polls H vs (cst_start src w) = (s, rs) -> Forall answered (c_log s) -> x_bad (c_conn s) = false ->
  src = concat reqs ++ hdr ++ rest -> Forall2 is_request reqs (c_log s) ->
  length hdr = 8 -> (4096 < le_dec (sbytes hdr))%N ->
  c_in s = hdr ++ rest ->
  forallb good_write (pe_flush v) = true -> 8 + 4096 <= length (filter accepting (pe_flush v)) ->
  forallb good_read (pe_recv v) = true -> 8 <= length (filter delivering (pe_recv v)) ->
  seen (conn_poll H v s) = PolledClose /\ c_log (fst (conn_poll H v s)) = c_log s.
Proof.
  intros SH vs src w s rs reqs hdr rest v P An Bd Src Rq L8 Big Ci Gw Lw Gr Lr.
  destruct (polls_inv H SH _ _ _ _ _ _ _ _ _ (start_inv H src w) P An) as (_ & _ & _ & q & c & lo & pend & I).
  pose proof (i_src _ _ _ _ _ _ _ I) as S0. rewrite (i_lost _ _ _ _ _ _ _ I Bd) in S0. cbn [List.app] in S0.
  rewrite Src in S0. apply (reqs_prefix _ _ _ _ _ Rq (i_reqs _ _ _ _ _ _ _ I)) in S0. destruct S0 as (_ & S0).
  rewrite Ci in S0. assert (c = []) as ->.
  { apply (f_equal (@length _)) in S0. rewrite (app_length c) in S0. destruct c; [reflexivity|cbn [length] in S0; lia]. }
  unfold conn_poll.
  destruct (flush_write_buffer (pe_flush v) (c_conn s)) as [[x o1] r1] eqn:F1.
  destruct (flush_ok _ _ _ _ _ _ _ (i_enc _ _ _ _ _ _ _ I) F1) as (l1 & P1 & K1 & L1 & D1 & Fd1 & B1 & R1).
  assert (r1 = Ok (Some tt)) as ->.
  { unfold flush_write_buffer in F1. rewrite (exhausted_ok _ _ (i_enc _ _ _ _ _ _ _ I)) in F1.
    destruct pend as [|b pd]; [now injection F1|].
    destruct (flush_loop (pe_flush v) (x_enc (c_conn s))) as [[e o] r0] eqn:Fl. injection F1 as <- <- <-.
    eapply (flush_all _ _ _ _ _ _ _ (i_enc _ _ _ _ _ _ _ I) ltac:(discriminate) Gw); [|exact Fl].
    destruct (i_pend _ _ _ _ _ _ _ I) as [Z|(bf & m & part & Ea & Fm)]; [discriminate|].
    assert (Lm : length m <= 4096).
    { assert (Im : In m (answers (c_log s))) by (rewrite Ea; apply in_or_app; right; now left).
      apply in_flat_map in Im. destruct Im as (en & Ie & Im).
      pose proof (i_called _ _ _ _ _ _ _ I) as Ca. rewrite Forall_forall in Ca.
      destruct (Ca _ Ie) as (buf & f' & b' & n & Lb & Hc & Ea'). rewrite Ea' in Im. destruct Im as [<-|[]].
      destruct (SH _ _ _ _ _ _ _ _ Hc) as (Lb' & _). rewrite firstn_length. lia. }
    apply (f_equal (@length byte)) in Fm. unfold frame in Fm. rewrite !app_length, le_enc_length in Fm. lia. }
  subst l1. unfold conn_recv. rewrite (exhausted_ok _ _ K1), B1, Bd. cbn [negb orb]. rewrite Ci.
  assert (Rd : reading x []) by (unfold reading; rewrite D1, Fd1; exact (i_reading _ _ _ _ _ _ _ I)).
  destruct (recv_big (pe_recv v) x [] hdr rest Rd ltac:(congruence) L8) as (x1 & Rc & E2 & B2).
  - cbn [List.app]. unfold announced. rewrite firstn_all2 by (rewrite sbytes_length; lia).
    assert (BE : 4096%N = N.of_nat BUFFER) by (vm_compute; reflexivity). now rewrite <- BE.
  - exact Gr.
  - lia.
  - rewrite Rc. cbn [seen fst c_conn c_log]. unfold should_close. rewrite B2, E2, (exhausted_ok _ _ K1).
    split; [reflexivity|now rewrite app_nil_r].
Qed.
End Left.
Print Assumptions C66_broken_is_closed_partial.
Print Assumptions C66_writer_gone_refuted.
Print Assumptions C66_reader_gone_refuted.
Print Assumptions C66_read_error_closes.
Print Assumptions C66_oversized_closes.

(** A connection whose polls fail makes the poll of the connection manager fail, as often as it is
    polled; and the server gives up when its event loop has failed eleven times (1080-1114 of app_server.rs),
    so that a single client can stop it. *)
Lemma failing_slot f : forall n k i x c, k <= i < k + n -> nth_error (io_conns x) i = Some (Some c) -> f i = PolledErr ->
  (forall j, j < i -> f j = Polled) -> k + n <= length (io_conns x) ->
  exists l, poll_connections n k f x = (x, l, Err IoConnection).
Proof.
  induction n as [|n IH]; intros k i x c Lk Hc Fi Fj Le; [lia|]. cbn [poll_connections].
  destruct (Nat.eq_dec k i) as [->|Ne].
  - unfold poll_particular_connection. rewrite Hc, Fi. eauto.
  - unfold poll_particular_connection. rewrite (Fj k) by lia.
    destruct (nth_error (io_conns x) k) as [[d|]|] eqn:Nk.
    + destruct (IH (S k) i x c ltac:(lia) Hc Fi Fj ltac:(lia)) as (l & R). rewrite R. eauto.
    + destruct (IH (S k) i x c ltac:(lia) Hc Fi Fj ltac:(lia)) as (l & R). rewrite R. eauto.
    + apply nth_error_None in Nk. lia.
Qed.

Theorem C66_server_stops_refuted : forall x w f x1 t i,
  accept_connections (io_listeners x) 0 w x = (x1, Ok tt) -> slot_of t i x1 ->
  f i = PolledErr -> (forall j, j < i -> f j = Polled) ->
  (exists l, poll_manager w f x = (x1, l, Err IoConnection)) /\
  slot_of t i (fst (fst (poll_manager w f x))) /\
  (forall turns : list nat, length turns = 11 -> snd (App.event_loop 0 (map (fun n => (n, false)) turns)) = Some false).
Proof.
  intros x w f x1 t i A Sl Fi Fj.
  assert (L : i < length (io_conns x1)) by (apply nth_error_Some; unfold slot_of in Sl; congruence).
  destruct (failing_slot f (length (io_conns x1)) 0 i x1 _ ltac:(lia) Sl Fi Fj ltac:(lia)) as (l & R).
  assert (Pm : poll_manager w f x = (x1, l, Err IoConnection)) by (unfold poll_manager; now rewrite A, R).
  split; [eauto|]. rewrite Pm. split; [exact Sl|]. exact PApp.C32_not_consecutive_refuted.
Qed.
Print Assumptions C66_server_stops_refuted.

(** * Non-vacuity *)
Module Toy.
(** An application that counts its requests and answers with the request; it rejects the empty one. *)
Definition echo (req : bytes) (fds : list fdesc) (buf : bytes) (w : nat) : nat * list fdesc * bytes * res unit nat :=
  match req with
  | [] => (w, fds, buf, Err tt)
  | _ => if length req <=? length buf then (S w, [], splice 0 req buf, Ok (length req)) else (w, fds, buf, Err tt)
  end.
Lemma echo_sane : sane echo.
Proof.
  intros req fds buf w w' fds' buf' r. unfold echo. destruct req as [|b req].
  - intros Z. injection Z as <- <- <- <-. split; [reflexivity|discriminate].
  - set (q := b :: req). clearbody q. destruct (Nat.leb_spec (length q) (length buf)) as [L|L]; intros Z.
    + assert (r = Ok (length q)) as -> by congruence. assert (buf' = splice 0 q buf) as -> by congruence.
      split; [apply splice_length; lia|]. intros n Hn. assert (n = length q) as -> by congruence. exact L.
    + assert (r = Err tt) as -> by congruence. assert (buf' = buf) as -> by congruence. split; [reflexivity|discriminate].
Qed.

Definition fd0 : fdesc := {| fd_file := None; fd_udp := false; fd_stream := None |}.
Definition with_fds (l : bytes) : stream := match l with [] => [] | b :: l => (b, [fd0; fd0; fd0]) :: plain l end.
Definition m1 : bytes := [x41; x42; x43].
Definition m2 : bytes := [x51; x52].
Definition src : stream := with_fds (frame m1) ++ plain (frame m2).
Definition ev fl rc bg : poll_ev nat := {| pe_app := fun w => w; pe_flush := fl; pe_recv := rc; pe_begin := bg |}.

(** In portions: the first poll ends in the header; the second reads the first request and writes a
    part of the response; the third writes the rest and reads the second request. *)
Definition run :=
  conn_polls echo [ev [] [VRead (Give 5)] []; ev [] [VRead (Give 9); VRead (RFail KInterrupted); VRead (Give 9)] [Accept 4];
    ev [Accept 100; Accept 100] [VRead (Give 100); VRead (Give 100)] []] (cst_start src 0).
Definition summary (p : cstate nat unit * list (res (conn_err unit) unit)) :=
  (map en_req (c_log (fst p)), map (fun en => length (en_fds en)) (c_log (fst p)), map en_answer (c_log (fst p)),
   c_out (fst p), c_world (fst p), length (c_in (fst p)), x_bad (c_conn (fst p)), snd p).
Lemma run_ok : summary run = ([m1; m2], [2; 0], [Ok m1; Ok m2], frame m1, 2, 0, false, [Ok tt; Ok tt; Ok tt]).
Proof. vm_compute. reflexivity. Qed.
End Toy.

Lemma all_answers {W E} (l : list (entry W E)) : forall ms, map en_answer l = map Ok ms -> Forall answered l /\ answers l = ms.
Proof.
  induction l as [|en l IH]; intros [|m ms] Q; try discriminate Q; [split; [constructor|reflexivity]|].
  cbn [map] in Q. assert (A : en_answer en = Ok m) by congruence. assert (B : map en_answer l = map Ok ms) by congruence.
  destruct (IH _ B) as (F & G). split; [constructor; [now exists m|exact F]|].
  unfold answers in *. cbn [flat_map]. rewrite A, G. reflexivity.
Qed.

Example C37_nonvacuous : exists s rs, Toy.run = (s, rs) /\ Forall answered (c_log s) /\
  map en_req (c_log s) = [Toy.m1; Toy.m2] /\ c_out s = frame Toy.m1 /\
  c_out s <> concat (map frame (answers (c_log s))) /\ x_bad (c_conn s) = false.
Proof.
  pose proof Toy.run_ok as R. unfold Toy.summary in R.
  destruct Toy.run as [s rs]. cbn [fst snd] in R. exists s, rs. split; [reflexivity|].
  assert (En : map en_answer (c_log s) = map Ok [Toy.m1; Toy.m2]) by (cbn [map]; congruence).
  destruct (all_answers _ _ En) as (An & Ea). split; [exact An|]. split; [congruence|].
  assert (Ou : c_out s = frame Toy.m1) by congruence. split; [exact Ou|].
  split; [rewrite Ou, Ea; intros Z; apply (f_equal (@length byte)) in Z; vm_compute in Z; discriminate Z|congruence].
Qed.

(** The hypotheses of C66: reading fails after the first byte; a message of 2^32 bytes is
    announced; the client of the run above goes away. *)
Example C66_nonvacuous :
  (exists s1, conn_poll Toy.echo (Toy.ev [] [VRead (Give 1); VRead (RFail KOther)] []) (cst_start Toy.src 0) = (s1, Err (CRead KOther)) /\
     seen (conn_poll Toy.echo (Toy.ev [] [] []) s1) = PolledClose) /\
  seen (conn_poll Toy.echo (Toy.ev [] (repeat (VRead (Give 1)) 8) [])
     (cst_start (plain [x00; x00; x00; x00; x01; x00; x00; x00; xff]) 0)) = PolledClose /\
  (exists s rs vs', Toy.run = (s, rs) /\
     snd (conn_polls Toy.echo vs' s) = repeat (Err (CWrite KOther)) 20) /\
  (exists s rs, conn_polls Toy.echo (repeat (Toy.ev [] (repeat (VRead (Give 100)) 2) [Accept 100; Accept 100]) 2) (cst_start Toy.src 0) = (s, rs) /\
     c_out s = frame Toy.m1 ++ frame Toy.m2 /\
     snd (conn_polls Toy.echo (repeat (Toy.ev [] [VRead (Give 100)] []) 20) s) = repeat (Ok tt) 20).
Proof.
  split; [eexists; split; [reflexivity|vm_compute; reflexivity]|]. split; [vm_compute; reflexivity|]. split.
  - destruct C37_nonvacuous as (s & rs & Ru & An & _ & _ & Pe & _). exists s, rs, (repeat (Toy.ev [WFail KOther] [] []) 20).
    split; [exact Ru|].
    apply (C66_writer_gone_refuted _ Toy.echo_sane KOther ltac:(discriminate) ltac:(discriminate) _ _ _ _ _ Ru An Pe).
    apply Forall_forall. intros v Hv. apply repeat_spec in Hv. subst. now exists [].
  - destruct (conn_polls Toy.echo (repeat (Toy.ev [] (repeat (VRead (Give 100)) 2) [Accept 100; Accept 100]) 2) (cst_start Toy.src 0))
      as [s rs] eqn:P. exists s, rs. split; [reflexivity|].
    assert (V : let p := conn_polls Toy.echo (repeat (Toy.ev [] (repeat (VRead (Give 100)) 2) [Accept 100; Accept 100]) 2) (cst_start Toy.src 0) in
      (c_out (fst p), x_bad (c_conn (fst p)), map en_answer (c_log (fst p)), map en_req (c_log (fst p)),
       map (fun en => length (en_fds en)) (c_log (fst p))) =
      (frame Toy.m1 ++ frame Toy.m2, false, [Ok Toy.m1; Ok Toy.m2], [Toy.m1; Toy.m2], [2; 0])) by (vm_compute; reflexivity).
    cbn zeta in V. rewrite P in V. cbn [fst] in V.
    assert (Ou : c_out s = frame Toy.m1 ++ frame Toy.m2) by congruence.
    split; [exact Ou|].
    assert (En : map en_answer (c_log s) = map Ok [Toy.m1; Toy.m2]) by (cbn [map]; congruence).
    destruct (all_answers _ _ En) as (An & Ea).
    destruct (C37_in_order_partial _ Toy.echo_sane _ _ _ _ _ P An) as (_ & reqs & rest & pend & Sr & Rq & _).
    assert (rest = []) as ->.
    { assert (Le : length (concat reqs) = length Toy.src).
      { assert (Er : map en_req (c_log s) = [Toy.m1; Toy.m2]) by congruence.
        destruct (c_log s) as [|a [|b [|]]]; try discriminate Er. inversion Rq as [|r1 ? ? ? A Rq1]. inversion Rq1 as [|r2 ? ? ? B Rq2].
        inversion Rq2. subst. cbn [concat]. rewrite app_nil_r, app_length. rewrite <- (sbytes_length r1), <- (sbytes_length r2).
        destruct A as (-> & _). destruct B as (-> & _). cbn [map] in Er.
        assert (en_req a = Toy.m1) as -> by congruence. assert (en_req b = Toy.m2) as -> by congruence. reflexivity. }
      apply (f_equal (@length _)) in Sr. rewrite app_length, Le in Sr. destruct rest; [reflexivity|cbn [length] in Sr; lia]. }
    rewrite app_nil_r in Sr.
    destruct (C66_reader_gone_refuted _ Toy.echo_sane _ _ _ _ _ reqs P An ltac:(congruence) Sr Rq) with (vs' := repeat (Toy.ev [] [VRead (Give 100)] []) 20)
      as (R & _); [rewrite Ou, Ea; cbn [map concat]; now rewrite app_nil_r| |exact R].
    apply Forall_forall. intros v Hv. apply repeat_spec in Hv. now subst.
Qed.
