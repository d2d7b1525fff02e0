(** Properties of the API messages and of the handling of requests: C35. *)
From Verif Require Import Base ConstTime Prims HashDomains Wire Server Protocol Wp Inv Rules Calls PollRules System
  Lpe PLpe Builder PBuilder AppIo PAppIo Api.

(** * Specification: the messages of the API

    A message is a type of 16 bytes, followed by a payload whose length depends on the type. *)
Definition code (s : side) (k : kind) : bytes :=
  match s, k with
  | Req, Ping            => [x23;x97;x3e;xcc;xc4;x41;x70;x4d;x0b;x02;xea;x31;x45;xd3;x49;x99]
  | Resp, Ping           => [x4e;xc7;xf6;xf0;x2b;xbc;xba;x64;x48;xf1;xda;x14;xc7;xcf;x02;x60]
  | Req, SupplyKeypair   => [xac;x91;xa5;xa6;x4f;x4b;x21;xd0;xac;x7f;x9b;x55;x74;xf7;x35;x29]
  | Resp, SupplyKeypair  => [xf2;xdc;x49;xbd;xe2;x61;x5f;x10;x40;xb7;x3c;x16;xec;x61;xed;xb9]
  | Req, AddListenSocket => [x3f;x21;x43;x4f;x87;xcc;xa0;x8c;x02;xc4;x61;xe4;x08;x16;xc7;xda]
  | Resp, AddListenSocket => [x45;xd5;x0f;x0d;x93;xf0;x61;x05;x98;xf2;x94;x69;x5d;xfd;x5f;x36]
  | Req, AddPskBroker    => [xd7;x98;xb8;xdc;xbd;x61;x5c;xab;x8d;xf1;xc6;x3d;xe4;xeb;xa2;xd1]
  | Resp, AddPskBroker   => [xbd;x25;xe4;x18;xff;xb0;x69;x30;x24;x8b;x21;x7e;x2f;xae;xe3;x53]
  end.
Definition payload_len (s : side) (k : kind) : nat :=
  match s, k with
  | _, Ping => 256          (* the echo *)
  | Req, _ => 0
  | Resp, _ => 16           (* the status *)
  end.

(** [buf] starts with a message of kind [k] and payload [p]. *)
Definition starts_with (s : side) (k : kind) (p buf : bytes) : Prop :=
  length p = payload_len s k /\ exists rest, buf = code s k ++ p ++ rest.

(** * Parsing *)
Lemma code_length s k : length (code s k) = 16.
Proof. destruct s, k; reflexivity. Qed.
Lemma raw_code s k : raw_of s k = le_dec (code s k).
Proof. destruct s, k; reflexivity. Qed.
Lemma enc_code s k : le_enc 16 (raw_of s k) = code s k.
Proof. rewrite raw_code. replace 16 with (length (code s k)) at 1 by apply code_length. apply le_enc_dec. Qed.
Lemma size_code s k : message_size s k = 16 + payload_len s k.
Proof. destruct s, k; reflexivity. Qed.

(** The eight types are different. *)
Theorem C35_types_distinct : forall s k s' k', code s k = code s' k' -> s = s' /\ k = k'.
Proof. intros [] [] [] [] H; try (split; reflexivity); discriminate H. Qed.
Print Assumptions C35_types_distinct.

Lemma kind_of_code s k : kind_of s (le_dec (code s k)) = Some k.
Proof. destruct s, k; reflexivity. Qed.
Lemma kind_of_sound s v k : kind_of s v = Some k -> v = le_dec (code s k).
Proof.
  unfold kind_of. destruct (v =? raw_of s Ping)%N eqn:E1; [intros [= <-]; rewrite <- raw_code; now apply N.eqb_eq|].
  destruct (v =? raw_of s SupplyKeypair)%N eqn:E2; [intros [= <-]; rewrite <- raw_code; now apply N.eqb_eq|].
  destruct (v =? raw_of s AddListenSocket)%N eqn:E3; [intros [= <-]; rewrite <- raw_code; now apply N.eqb_eq|].
  destruct (v =? raw_of s AddPskBroker)%N eqn:E4; [intros [= <-]; rewrite <- raw_code; now apply N.eqb_eq|discriminate].
Qed.

Lemma prefix_kind s buf k : msg_type_from_prefix s buf = Some k <-> exists rest, buf = code s k ++ rest.
Proof.
  unfold msg_type_from_prefix, zk_prefix, zk_parse. split.
  - destruct (16 <=? length buf) eqn:L; [|discriminate]. apply Nat.leb_le in L.
    rewrite firstn_length, Nat.min_l by lia. rewrite Nat.leb_refl, Nat.eqb_refl.
    intros K. apply kind_of_sound in K. exists (skipn 16 buf).
    apply le_dec_inj in K; [|rewrite firstn_length, code_length; lia].
    rewrite <- K. symmetry. apply firstn_skipn.
  - intros (rest & ->). rewrite app_length, code_length. cbn [Nat.add Nat.leb].
    rewrite firstn_app, code_length, Nat.sub_diag, firstn_O, app_nil_r, <- (code_length s k), firstn_all.
    rewrite code_length. cbn [Nat.leb Nat.eqb]. apply kind_of_code.
Qed.

Lemma prefix_parse s buf k body : parse_from_prefix s buf = Some (k, body) <->
  exists p rest, buf = code s k ++ p ++ rest /\ length p = payload_len s k /\ body = code s k ++ p.
Proof.
  unfold parse_from_prefix, maker_new, maker_from_prefix, maker_parse, obind, zk_parse. split.
  - destruct (msg_type_from_prefix s buf) as [k'|] eqn:E; [|discriminate]. cbn [fst snd].
    destruct (message_size s k' <=? length buf) eqn:L; [|discriminate]. apply Nat.leb_le in L. cbn [fst snd].
    rewrite firstn_length, Nat.min_l, Nat.leb_refl, Nat.eqb_refl by lia. intros [= <- <-].
    apply prefix_kind in E. destruct E as (r & ->). rewrite app_length, code_length, size_code in L.
    exists (firstn (payload_len s k') r), (skipn (payload_len s k') r).
    split; [now rewrite firstn_skipn|]. split; [rewrite firstn_length; lia|].
    rewrite size_code, firstn_app, code_length.
    rewrite firstn_all2 by (rewrite code_length; lia). do 2 f_equal. lia.
  - intros (p & rest & -> & L & ->).
    assert (E : msg_type_from_prefix s (code s k ++ p ++ rest) = Some k) by (apply prefix_kind; eauto).
    rewrite E. cbn [fst snd]. rewrite size_code, !app_length, code_length, L.
    replace (16 + payload_len s k <=? 16 + (payload_len s k + length rest)) with true by (symmetry; apply Nat.leb_le; lia).
    cbn [fst snd]. rewrite app_assoc, firstn_app, firstn_all2 by (rewrite app_length, code_length; lia).
    replace (16 + payload_len s k - length (code s k ++ p)) with 0 by (rewrite app_length, code_length; lia).
    rewrite firstn_O, app_nil_r, size_code, app_length, code_length, L.
    now rewrite Nat.leb_refl, Nat.eqb_refl.
Qed.

(** A byte string is taken for a message of kind [k] exactly if it starts with the type of [k]
    and has enough bytes for its payload; what is read are these bytes. *)
Theorem C35_parsed_iff : forall s buf k body,
  parse_from_prefix s buf = Some (k, body) <->
  exists p, starts_with s k p buf /\ body = code s k ++ p.
Proof.
  intros s buf k body. rewrite prefix_parse. unfold starts_with. split.
  - intros (p & rest & E & L & B). exists p. eauto.
  - intros (p & (L & rest & E) & B). exists p, rest. auto.
Qed.
Print Assumptions C35_parsed_iff.

(** Likewise where the message has to fill the byte string (as a client reads its response). *)
Theorem C35_parsed_exactly_iff : forall s buf k body,
  parse s buf = Some (k, body) <->
  exists p, length p = payload_len s k /\ buf = code s k ++ p /\ body = buf.
Proof.
  intros s buf k body. unfold parse, maker_new, maker_parse, obind, zk_parse. split.
  - destruct (msg_type_from_prefix s buf) as [k'|] eqn:E; [|discriminate]. cbn [fst snd].
    destruct (message_size s k' <=? length buf) eqn:L; [|discriminate].
    destruct (length buf =? message_size s k') eqn:Q; [|discriminate].
    intros [= <- <-]. apply Nat.eqb_eq in Q. apply prefix_kind in E. destruct E as (r & ->).
    rewrite app_length, code_length, size_code in Q. exists r. split; [lia|auto].
  - intros (p & L & -> & ->).
    assert (E : msg_type_from_prefix s (code s k ++ p) = Some k) by (apply prefix_kind; eauto).
    rewrite E. cbn [fst snd]. rewrite size_code, app_length, code_length, L.
    now rewrite Nat.leb_refl, Nat.eqb_refl.
Qed.
Print Assumptions C35_parsed_exactly_iff.

(** The messages the client library makes are well formed. *)
Theorem C35_made : forall s k p rest, length p = payload_len s k -> starts_with s k p (message s k p ++ rest).
Proof.
  intros s k p rest L. split; [exact L|]. exists rest. unfold message. rewrite enc_code. now rewrite <- app_assoc.
Qed.
Print Assumptions C35_made.

(** A well-formed message can only be read in one way. *)
Theorem C35_unambiguous : forall s k p k' p' buf,
  starts_with s k p buf -> starts_with s k' p' buf -> k' = k /\ p' = p.
Proof.
  intros s k p k' p' buf A B.
  assert (PA : parse_from_prefix s buf = Some (k, code s k ++ p)) by (apply C35_parsed_iff; eauto).
  assert (PB : parse_from_prefix s buf = Some (k', code s k' ++ p')) by (apply C35_parsed_iff; eauto).
  rewrite PA in PB. injection PB as Ek Ep. subst k'. apply app_inv_head in Ep. auto.
Qed.
Print Assumptions C35_unambiguous.

(** * Handling *)
(** What the handler of each kind does: [p] is the payload of the request and [q] that of the
    response.  [fds] are the file descriptors that came with the request. *)
Inductive done P (e : api_env) (fds : list fdesc) (w : world) : kind -> bytes -> world -> bytes -> Prop :=
| done_ping p : done P e fds w Ping p w p
| done_keypair p site st :
    supply_keypair P (ae_draws e) (map fd_file fds) (w_site w) = (site, Ok st) ->
    done P e fds w SupplyKeypair p {| w_site := site; w_io := w_io w |} (le_enc 16 st)
| done_listen p x st :
    add_listen_socket (match fds with f :: _ => fd_udp f | [] => false end) (ae_listen e) (w_io w) = (x, Ok st) ->
    done P e fds w AddListenSocket p {| w_site := w_site w; w_io := x |} (le_enc 16 st)
| done_broker p x st :
    add_psk_broker (match fds with f :: _ => fd_stream f | [] => None end) (ae_unregister e) (ae_register e) (w_io w)
      = (x, Ok st) ->
    done P e fds w AddPskBroker p {| w_site := w_site w; w_io := x |} (le_enc 16 st).

Lemma skipn_skipn' {A} (l : list A) : forall n m, skipn m (skipn n l) = skipn (n + m) l.
Proof. induction l as [|a l IH]; intros [|n] m; try (now rewrite ?skipn_nil). apply IH. Qed.
Lemma splice_head (a buf : bytes) : splice 0 a buf = a ++ skipn (length a) buf.
Proof. unfold splice. now rewrite firstn_O. Qed.
Lemma splice_second (a q r : bytes) n : length a = n -> splice n q (a ++ r) = a ++ q ++ skipn (length q) r.
Proof.
  intros L. unfold splice. rewrite firstn_app, firstn_all2 by lia.
  replace (n - length a) with 0 by lia. rewrite firstn_O, app_nil_r.
  rewrite skipn_app, skipn_all2 by lia. cbn [List.app]. now replace (n + length q - length a) with (length q) by lia.
Qed.

Lemma starts_parse k p req : starts_with Req k p req -> parse_from_prefix Req req = Some (k, code Req k ++ p).
Proof. intros S. apply C35_parsed_iff. eauto. Qed.

Lemma handle_shape P e k p req fds buf w :
  starts_with Req k p req -> 16 + payload_len Resp k <= length buf ->
  handle_message P e req fds buf w =
  match handle P e k p fds w with
  | (w', fds', Ok q) => (w', fds', splice 16 q (code Resp k ++ skipn 16 buf), Ok (16 + payload_len Resp k))
  | (w', fds', Err x) => (w', fds', code Resp k ++ skipn 16 buf, Err x)
  | (w', fds', Panic) => (w', fds', code Resp k ++ skipn 16 buf, Panic)
  end.
Proof.
  intros S L. unfold handle_message. rewrite (starts_parse _ _ _ S). unfold zk_prefix.
  rewrite size_code. replace (16 + payload_len Resp k <=? length buf) with true by (symmetry; apply Nat.leb_le; lia).
  rewrite enc_code, splice_head, code_length.
  rewrite skipn_app, skipn_all2 by (rewrite code_length; lia). rewrite code_length, Nat.sub_diag. cbn [List.app skipn].
  reflexivity.
Qed.

Local Opaque le_enc code.
Lemma handle_done P e k p fds w w' fds' q : length p = payload_len Req k ->
  handle P e k p fds w = (w', fds', Ok q) -> done P e fds w k p w' q /\ length q = payload_len Resp k.
Proof.
  intros L. destruct k; cbn [handle].
  - intros [= <- <- <-]. split; [constructor|exact L].
  - destruct (supply_keypair P (ae_draws e) (map fd_file fds) (w_site w)) as [c [st| |]] eqn:E; try discriminate.
    intros [= <- <- <-]. split; [now constructor|apply le_enc_length].
  - destruct (add_listen_socket _ _ _) as [c [st| |]] eqn:E; try discriminate.
    intros [= <- <- <-]. split; [now constructor|apply le_enc_length].
  - destruct (add_psk_broker _ _ _ _) as [c [st| |]] eqn:E; try discriminate.
    intros [= <- <- <-]. split; [now constructor|apply le_enc_length].
Qed.

(** A well-formed request is handled by the handler of its kind and of no other; if it is
    answered, the answer is the response of the same kind with what the handler produced, at the
    start of the response buffer, and the length returned is that of this response. *)
Theorem C35_answered : forall P e k p req fds buf w w' fds' buf' n,
  starts_with Req k p req ->
  handle_message P e req fds buf w = (w', fds', buf', Ok n) ->
  exists q, done P e fds w k p w' q /\ length q = payload_len Resp k /\
    n = 16 + payload_len Resp k /\ n <= length buf /\ buf' = code Resp k ++ q ++ skipn n buf.
Proof.
  intros P e k p req fds buf w w' fds' buf' n S H.
  assert (Room : 16 + payload_len Resp k <= length buf).
  { unfold handle_message in H. rewrite (starts_parse _ _ _ S) in H. unfold zk_prefix in H.
    rewrite size_code in H. destruct (16 + payload_len Resp k <=? length buf) eqn:L; [apply Nat.leb_le in L; exact L|].
    discriminate H. }
  rewrite (handle_shape _ _ _ _ _ _ _ _ S Room) in H.
  remember (skipn 16 buf) as tail eqn:T. remember (16 + payload_len Resp k) as n0 eqn:N0.
  destruct (handle P e k p fds w) as [[w1 f1] [q| |]] eqn:E; try discriminate H.
  injection H as <- <- <- <-.
  destruct (handle_done _ _ _ _ _ _ _ _ _ (proj1 S) E) as (D & Lq). exists q.
  split; [exact D|]. split; [exact Lq|]. split; [reflexivity|]. split; [exact Room|].
  rewrite splice_second by apply code_length. rewrite Lq, T, N0, skipn_skipn'. reflexivity.
Qed.
Print Assumptions C35_answered.

(** Such a response is read by the client as a response of the kind of its request. *)
Theorem C35_client_reads : forall P e k p req fds buf w w' fds' buf' n,
  starts_with Req k p req ->
  handle_message P e req fds buf w = (w', fds', buf', Ok n) ->
  exists q, done P e fds w k p w' q /\ parse Resp (firstn n buf') = Some (k, code Resp k ++ q).
Proof.
  intros P e k p req fds buf w w' fds' buf' n S H.
  destruct (C35_answered _ _ _ _ _ _ _ _ _ _ _ _ S H) as (q & D & Lq & -> & _ & ->).
  exists q. split; [exact D|]. apply C35_parsed_exactly_iff. exists q.
  rewrite app_assoc, firstn_app, firstn_all2 by (rewrite app_length, code_length; lia).
  replace (16 + payload_len Resp k - length (code Resp k ++ q)) with 0 by (rewrite app_length, code_length; lia).
  rewrite firstn_O, app_nil_r. auto.
Qed.
Print Assumptions C35_client_reads.

(** The only requests with an error instead of an answer, given room for the response, are those
    to supply a keypair when the server cannot be built, because two peers are the same or an
    earlier attempt has failed for this reason; nothing but a broker request that comes with a
    broker can make the server panic (see C30). *)
Theorem C35_otherwise : forall P e k p req fds buf w w' fds' buf' r,
  starts_with Req k p req -> 16 + payload_len Resp k <= length buf -> io_reachable (w_io w) ->
  handle_message P e req fds buf w = (w', fds', buf', r) ->
  match r with
  | Ok _ => True
  | Err x => k = SupplyKeypair /\ w_site w' = Void /\ w_io w' = w_io w /\
      exists sk pk, carries (map fd_file fds) sk pk /\
        (w_site w = Void \/ exists b, w_site w = Building b /\ ~ NoDup (identities P (b_peers b)))
  | Panic => k = AddPskBroker /\ exists f obj, nth_error fds 0 = Some f /\ fd_stream f = Some obj
  end.
Proof.
  intros P e k p req fds buf w w' fds' buf' r S L R H.
  rewrite (handle_shape _ _ _ _ _ _ _ _ S L) in H.
  destruct k; cbn [handle] in H.
  - injection H as <- <- <- <-. exact I.
  - destruct (supply_spec P (ae_draws e) (map fd_file fds) (w_site w)) as [[_ E]|(sk & pk & C & E)]; rewrite E in H.
    { injection H as <- <- <- <-. exact I. }
    destruct (w_site w) as [|b|s].
    + injection H as <- <- <- <-. cbn [w_site w_io]. split; [reflexivity|]. split; [reflexivity|].
      split; [reflexivity|]. exists sk, pk. auto.
    + set (b' := {| b_keypair := Some (sk, pk); b_peers := b_peers b |}) in *.
      destruct (C33_build_fails P (ae_draws e) b') as (NP & F).
      destruct (build P (ae_draws e) b') as [s|x|]; injection H as <- <- <- <-; [exact I| |now elim NP].
      cbn [w_site w_io]. split; [reflexivity|]. split; [reflexivity|]. split; [reflexivity|].
      exists sk, pk. split; [exact C|]. right. exists b. split; [reflexivity|].
      destruct (F x eq_refl) as [[_ K]|(_ & _ & ND)]; [discriminate K|exact ND].
    + injection H as <- <- <- <-. exact I.
  - destruct (C29_registration_never_panics _ R (ae_listen e) 0 []) as (N & _).
    unfold add_listen_socket in H. destruct (negb _); [injection H as <- <- <- <-; exact I|].
    destruct (register_listen_socket (ae_listen e) (w_io w)) as [x [t|y|]]; try (injection H as <- <- <- <-; exact I).
    now elim N.
  - destruct (add_psk_broker _ _ _ _) as [x [t|y|]] eqn:E; try (injection H as <- <- <- <-; exact I).
    + injection H as <- <- <- <-. split; [reflexivity|]. revert E. unfold add_psk_broker.
      destruct fds as [|f fds]; [discriminate|]. destruct (fd_stream f) as [obj|] eqn:F; [|discriminate].
      intros _. exists f, obj. auto.
    + injection H as <- <- <- <-. split; [reflexivity|]. revert E. unfold add_psk_broker.
      destruct fds as [|f fds]; [discriminate|]. destruct (fd_stream f) as [obj|] eqn:F; [|discriminate].
      intros _. exists f, obj. auto.
Qed.
Print Assumptions C35_otherwise.

(** Anything that is not a well-formed request is rejected, without effect and without touching
    the response or the file descriptors; so is a request whose response has no room. *)
Theorem C35_rejected : forall P e req fds buf w,
  (forall k p, ~ starts_with Req k p req) ->
  handle_message P e req fds buf w = (w, fds, buf, Err ABadRequest).
Proof.
  intros P e req fds buf w H. unfold handle_message.
  destruct (parse_from_prefix Req req) as [[k b]|] eqn:E; [|reflexivity].
  apply C35_parsed_iff in E. destruct E as (p & S & _). now elim (H k p).
Qed.
Print Assumptions C35_rejected.

Theorem C35_no_room : forall P e k p req fds buf w,
  starts_with Req k p req -> length buf < 16 + payload_len Resp k ->
  handle_message P e req fds buf w = (w, fds, buf, Err ANoRoom).
Proof.
  intros P e k p req fds buf w S L. unfold handle_message. rewrite (starts_parse _ _ _ S). unfold zk_prefix.
  rewrite size_code. replace (16 + payload_len Resp k <=? length buf) with false; [reflexivity|].
  symmetry. apply Nat.leb_gt. lia.
Qed.
Print Assumptions C35_no_room.

(** A ping is always answered with its echo and changes nothing. *)
Theorem C35_ping : forall P e echo rest fds buf w,
  length echo = 256 -> 272 <= length buf ->
  handle_message P e (code Req Ping ++ echo ++ rest) fds buf w =
    (w, fds, code Resp Ping ++ echo ++ skipn 272 buf, Ok 272).
Proof.
  intros P e echo rest fds buf w L B.
  assert (S : starts_with Req Ping echo (code Req Ping ++ echo ++ rest)) by (split; [exact L|eauto]).
  rewrite (handle_shape _ _ _ _ _ _ _ _ S) by (cbn [payload_len]; lia). cbn [handle payload_len].
  rewrite splice_second by apply code_length. rewrite L, skipn_skipn'. reflexivity.
Qed.
Print Assumptions C35_ping.

(** ** File descriptors are used by the handler they were sent to *)

(** A request to listen without a UDP socket is answered INVALID_REQUEST (1) and changes nothing;
    with one, the socket is registered (0) unless the system refuses it (2). *)
Theorem C35_listen : forall P e req rest fds buf w,
  req = code Req AddListenSocket ++ rest -> 32 <= length buf -> io_reachable (w_io w) ->
  exists w' fds' n st, handle_message P e req fds buf w =
    (w', fds', code Resp AddListenSocket ++ le_enc 16 st ++ skipn 32 buf, Ok n) /\ n = 32 /\
  w_site w' = w_site w /\ fds' = tl fds /\
  match fds with
  | f :: _ => if fd_udp f
              then if ae_listen e
                   then st = 0%N /\ io_sockets (w_io w') = io_sockets (w_io w) + 1 /\
                        exists t, mget t (io_index (w_io w)) = None /\
                          forall t', mget t' (io_index (w_io w')) =
                            if Nat.eqb t' t then Some (SrcSocket (io_sockets (w_io w))) else mget t' (io_index (w_io w))
                   else st = 2%N /\ io_sockets (w_io w') = io_sockets (w_io w)
              else st = 1%N /\ w' = w
  | [] => st = 1%N /\ w' = w
  end.
Proof.
  intros P e req rest fds buf w -> B R.
  assert (S : starts_with Req AddListenSocket [] (code Req AddListenSocket ++ rest)) by (split; [reflexivity|exists rest; reflexivity]).
  rewrite (handle_shape _ _ _ _ _ _ _ _ S) by (cbn [payload_len]; lia). cbn [handle payload_len Nat.add].
  assert (Sp : forall st, splice 16 (le_enc 16 st) (code Resp AddListenSocket ++ skipn 16 buf) =
    code Resp AddListenSocket ++ le_enc 16 st ++ skipn 32 buf).
  { intros st. rewrite splice_second by apply code_length. rewrite le_enc_length, skipn_skipn'. reflexivity. }
  assert (W : {| w_site := w_site w; w_io := w_io w |} = w) by (now destruct w).
  destruct fds as [|f fds].
  { unfold add_listen_socket; cbn [negb]. exists w, [], 32, 1%N. rewrite Sp, W. auto 10. }
  destruct (fd_udp f) eqn:U.
  2:{ unfold add_listen_socket; cbn [negb]. exists w, fds, 32, 1%N. rewrite Sp, W. auto 10. }
  unfold add_listen_socket. cbn [negb].
  pose proof (dispense_fresh _ (reachable_ioinv _ R)) as Fr.
  pose proof (C29_registration_never_panics _ R (ae_listen e) 0 []) as (N & _).
  destruct (ae_listen e) eqn:A.
  - unfold register_listen_socket, dispense, register_io_source in *. cbn [negb fst snd] in *.
    cbn [set_io_sockets set_io_counter io_index set_io_index] in *.
    rewrite Fr in *. eexists _, fds, 32, 0%N. rewrite Sp. split; [reflexivity|].
    cbn [w_site w_io io_sockets io_index set_io_index]. repeat (split; [reflexivity|]).
    exists (io_counter (w_io w)). split; [exact Fr|]. intros t'. rewrite mget_mset. reflexivity.
  - unfold register_listen_socket, dispense in *. cbn [negb] in *.
    eexists _, fds, 32, 2%N. rewrite Sp. split; [reflexivity|]. repeat (split; [reflexivity|]). reflexivity.
Qed.
Print Assumptions C35_listen.

Local Transparent le_enc code.

(** * Reading from the end of a buffer

    [parse_request_from_suffix] looks for the type at the start of the buffer and not at the
    start of the suffix: a buffer that ends with a well-formed ping request is taken for another
    request, made of the end of the echo. *)
Theorem C35_suffix_refuted : exists buf echo k body,
  length echo = 256 /\ buf = code Req SupplyKeypair ++ code Req Ping ++ echo /\
  parse_from_suffix Req buf = Some (k, body) /\ k = SupplyKeypair /\ body = skipn 240 echo.
Proof.
  exists (code Req SupplyKeypair ++ code Req Ping ++ repeat x00 256), (repeat x00 256).
  eexists _, _. split; [reflexivity|]. split; [reflexivity|]. split; [vm_compute; reflexivity|].
  split; reflexivity.
Qed.
Print Assumptions C35_suffix_refuted.

(** What it does: the type is the one at the start of the buffer, and the message is the last bytes of the buffer, as many as a message
    of that type has, whatever they are. *)
Theorem C35_suffix_read : forall s buf k body, parse_from_suffix s buf = Some (k, body) <->
  (exists rest, buf = code s k ++ rest) /\ length body = 16 + payload_len s k /\ exists before, buf = before ++ body.
Proof.
  intros s buf k body. unfold parse_from_suffix, maker_new, maker_from_suffix, maker_parse, obind, zk_parse. split.
  - destruct (msg_type_from_prefix s buf) as [k'|] eqn:K; [|discriminate]. apply prefix_kind in K. cbn [fst snd]. rewrite size_code.
    destruct (Nat.leb_spec (16 + payload_len s k') (length buf)) as [L|L]; [|discriminate]. cbn [fst snd]. rewrite size_code.
    rewrite skipn_length. replace (length buf - (length buf - (16 + payload_len s k'))) with (16 + payload_len s k') by lia. rewrite Nat.leb_refl, Nat.eqb_refl.
    intros E. assert (k' = k) by congruence. subst k'. assert (body = skipn (length buf - (16 + payload_len s k)) buf) by congruence. subst body.
    split; [exact K|]. split; [rewrite skipn_length; lia|]. exists (firstn (length buf - (16 + payload_len s k)) buf). symmetry. apply firstn_skipn.
  - intros (K & L & before & E). apply prefix_kind in K. rewrite K. cbn [fst snd]. rewrite size_code.
    assert (Lb : length buf = length before + length body) by (rewrite E; apply app_length).
    destruct (Nat.leb_spec (16 + payload_len s k) (length buf)) as [_|X]; [|lia]. cbn [fst snd]. rewrite size_code.
    replace (length buf - (16 + payload_len s k)) with (length before) by lia.
    assert (Sk : skipn (length before) buf = body) by (rewrite E, skipn_app, skipn_all, Nat.sub_diag; reflexivity).
    rewrite Sk, L, Nat.leb_refl, Nat.eqb_refl. reflexivity.
Qed.
Print Assumptions C35_suffix_read.

(** * The hypotheses can be met *)
Example C35_nonvacuous : forall P e s,
  let w := {| w_site := s; w_io := io_new 1 |} in
  let buf := repeat x00 4096 in
  io_reachable (w_io w) /\
  (exists p, starts_with Req Ping p (message Req Ping (repeat x42 256))) /\
  handle_message P e (message Req Ping (repeat x42 256)) [] buf w =
    (w, [], code Resp Ping ++ repeat x42 256 ++ repeat x00 3824, Ok 272) /\
  (forall k p, ~ starts_with Req k p (code Resp Ping ++ repeat x42 256)) /\
  (forall k p, ~ starts_with Req k p (code Req Ping ++ repeat x42 255)).
Proof.
  intros P e s w buf. split; [exists 1, []; constructor|]. split.
  { exists (repeat x42 256). rewrite <- (app_nil_r (message _ _ _)). apply C35_made. reflexivity. }
  split; [vm_compute; reflexivity|]. split.
  - intros k p (L & rest & E). apply (f_equal (firstn 16)) in E.
    rewrite (firstn_app _ (code Req k)), code_length, Nat.sub_diag, firstn_O, app_nil_r in E.
    rewrite (firstn_all2 (code Req k)) in E by (rewrite code_length; lia).
    destruct k; discriminate E.
  - intros k p (L & rest & E). pose proof (f_equal (@length byte) E) as Le.
    apply (f_equal (firstn 16)) in E.
    rewrite (firstn_app _ (code Req k)), code_length, Nat.sub_diag, firstn_O, app_nil_r in E.
    rewrite (firstn_all2 (code Req k)) in E by (rewrite code_length; lia).
    destruct k; try discriminate E. rewrite !app_length, L, repeat_length in Le. cbn in Le. lia.
Qed.
