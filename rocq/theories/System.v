(** Histories of API calls on one server: the public calls of [CryptoServer]
    (rosenpass/src/protocol/protocol.rs) with their arguments, the clock reading and the
    random draws of the call, executed one after the other.  A call that returns an error
    leaves the server usable, as in app_server.rs:1116-1248 where errors of single calls
    are logged and the loop goes on. *)
From Verif Require Import Base ConstTime Prims HashDomains Wire Server Protocol Wp Inv Rules Calls PollRules.
Local Open Scope m_scope.

(** One argument per function of the API:
    protocol.rs:1260 [add_peer], 1905 [initiate_handshake], 2169 [handle_msg],
    1994 [handle_msg_under_load], 2887 [poll], 2977 [retransmit_handshake], 3498 [osk]. *)
Inductive op :=
| OAddPeer (psk : option bytes) (pk : bytes) (a : halg) (ds : osk_ds)
| OInitiate (p : nat) (tx : bytes)
| OMsg (rx tx : bytes)
| OLoad (rx tx host : bytes)
| OPoll
| ORetransmit (p : nat) (tx : bytes)
| OOsk (p : nat).

(** One call of a function of protocol.rs listed above, with the clock reading of protocol.rs 88 and its random draws; the clock is read once per call *)
Record call := { c_now : time; c_coins : coins; c_op : op }.

(** What the functions of protocol.rs listed above return *)
Inductive outcome :=
| RPeer (p : nat)
| RSent (m : bytes)
| RHandled (r : msg_result)
| RPolled (r : poll_result)
| RKey (k : bytes).

Section WithPrims.
Context (P : prims).

(** No code in /repo: [Result::map]. *)
Definition map_ok {A B} (f : A -> B) (m : M A) : M B := x <- m ;; ret (f x).

(** protocol.rs 1260-1289, 1905-1921, 2169-2326, 1994-2118, 2887-2897, 2977-2979, 3498-3505 *)
Definition exec (c : call) : M outcome :=
  let now := c_now c in
  let r := c_coins c in
  match c_op c with
  | OAddPeer psk pk a ds => map_ok RPeer (add_peer P psk pk a ds)
  | OInitiate p tx => map_ok RSent (initiate_handshake P now r p tx)
  | OMsg rx tx => map_ok RHandled (handle_msg P now r rx tx)
  | OLoad rx tx host => map_ok RHandled (handle_msg_under_load P now r rx tx host)
  | OPoll => map_ok RPolled (poll now r)
  | ORetransmit p tx => map_ok RSent (retransmit_handshake P p tx)
  | OOsk p => map_ok RKey (osk P p)
  end.

(** The caller's obligations: peer handles come from [add_peer], the transmit buffer is a
    [MsgBuf] (basic_types.rs:35, [MAX_MESSAGE_LEN] = 2500 bytes; the size of the largest
    message suffices), and the random draws have the sizes of their types. *)
Definition valid (c : call) (s : srv) : Prop :=
  wf_coins (c_coins c) /\
  match c_op c with
  | OAddPeer _ _ _ _ => True
  | OInitiate p tx => p < length (s_peers s) /\ 1100 <= length tx
  | OMsg _ tx | OLoad _ tx _ => 1100 <= length tx
  | OPoll => True
  | ORetransmit p tx => p < length (s_peers s) /\ 1100 <= length tx
  | OOsk p => p < length (s_peers s)
  end.

(** [run s h s']: from [s] the history [h] of calls and their results leads to [s'].  No code in /repo: histories of the calls above (protocol.rs 1187-4157). *)
Inductive run : srv -> list (call * res err outcome) -> srv -> Prop :=
| run_nil s : run s [] s
| run_cons s c r s1 h s2 :
    valid c s -> exec c s = (s1, r) -> run s1 h s2 -> run s ((c, r) :: h) s2.

(** A server as [CryptoServer::new] makes it, with any keys and random values.  protocol.rs 1187-1203. *)
Definition initial (s : srv) : Prop :=
  exists sk pk b0 b1 k0 k1 hk, s = server_new sk pk b0 b1 k0 k1 hk.

(** No code in /repo: histories from protocol.rs 1187 on. *)
Definition reachable (s : srv) : Prop := exists s0 h, initial s0 /\ run s0 h s.

(** * Basic facts *)

Lemma tx_fits (tx : bytes) : 1100 <= length tx -> env_len RH_LEN <= length tx.
Proof. intros H. exact H. Qed.

(** Calls other than [add_peer] keep the number of peers.  No code in /repo: used in proofs. *)
Definition grows (s s' : srv) : Prop := inv P s' /\ evo s s'.

Lemma wp_map_ok {A B} (f : A -> B) (m : M A) (Q : srv -> res err B -> Prop) s :
  wp m (fun s' r => match r with Ok a => Q s' (Ok (f a)) | Err e => Q s' (Err e)
                             | Panic => Q s' Panic end) s -> wp (map_ok f m) Q s.
Proof.
  intros H. unfold map_ok. apply wp_bind. eapply wp_mono; [exact H|].
  intros s' [a|e|] Hq; exact Hq.
Qed.

Lemma fine_map {A B} (f : A -> B) (m : M A) s :
  wp m (fine P s) s -> wp (map_ok f m) (fine P s) s.
Proof.
  intros H. apply wp_map_ok. eapply wp_mono; [exact H|].
  intros s' [a|e|] [G N]; split; auto; discriminate.
Qed.

Lemma exec_grows c s : inv P s -> valid c s ->
  wp (exec c) (fun s' r => grows s s' /\ r <> Panic /\
    match c_op c with OAddPeer _ _ _ _ => True | _ => npeers s' = npeers s end) s.
Proof.
  intros I [W V]. unfold exec.
  assert (forall m : M outcome, wp m (fine P s) s ->
    wp m (fun s' r => grows s s' /\ r <> Panic /\ npeers s' = npeers s) s) as K.
  { intros m H. eapply wp_mono; [exact H|]. intros s' r [[A B C] D].
    split; [split; auto|split; auto]. }
  assert (forall A (m : M A), wp m (fun s' r => s' = s /\ r <> Panic) s -> wp m (fine P s) s) as K2.
  { intros A m H. eapply wp_mono; [exact H|]. intros s' r [-> D].
    split; [now apply good_refl|exact D]. }
  destruct (c_op c) as [psk pk a ds|p tx|rx tx|rx tx host| |p tx|p].
  - apply wp_map_ok. eapply wp_mono; [apply add_peer_fine; exact I|].
    intros s' [n|e|] (A & B & C & D).
    + split; [split; auto|split; [discriminate|exact Logic.I]].
    + split; [split; auto|split; [discriminate|exact Logic.I]].
    + contradiction.
  - apply K, fine_map, initiate_fine; auto; [apply V|]. apply ih_fits, tx_fits, V.
  - apply K, fine_map, handle_msg_fine; auto; apply tx_fits, V.
  - apply K, fine_map, handle_msg_under_load_fine; auto; apply tx_fits, V.
  - apply K, fine_map, poll_fine; auto.
  - apply K, fine_map, K2, retransmit_fine; auto; [apply V|]. apply ih_fits, tx_fits, V.
  - apply K, fine_map, K2, osk_fine; auto; apply V.
Qed.

Lemma exec_inv c s s' r : inv P s -> valid c s -> exec c s = (s', r) -> inv P s'.
Proof.
  intros I V E. pose proof (exec_grows c s I V) as W. unfold wp in W. rewrite E in W.
  apply W.
Qed.
Lemma exec_evo c s s' r : inv P s -> valid c s -> exec c s = (s', r) -> evo s s'.
Proof.
  intros I V E. pose proof (exec_grows c s I V) as W. unfold wp in W. rewrite E in W.
  apply W.
Qed.

Lemma run_inv s h s' : inv P s -> run s h s' -> inv P s'.
Proof. intros I R. induction R; auto. apply IHR. eapply exec_inv; eauto. Qed.
Lemma run_evo s h s' : inv P s -> run s h s' -> evo s s'.
Proof.
  intros I R. induction R; [apply evo_refl|].
  eapply evo_trans; [eapply exec_evo; eauto|]. apply IHR. eapply exec_inv; eauto.
Qed.

Lemma initial_inv s : initial s -> inv P s.
Proof. intros (sk & pk & b0 & b1 & k0 & k1 & hk & ->). apply server_new_inv. Qed.
Lemma reachable_inv s : reachable s -> inv P s.
Proof. intros (s0 & h & I & R). eapply run_inv; eauto. now apply initial_inv. Qed.
Lemma initial_reachable s : initial s -> reachable s.
Proof. intros I. exists s, []. split; auto. constructor. Qed.

Lemma run_app s h1 s1 h2 s2 : run s h1 s1 -> run s1 h2 s2 -> run s (h1 ++ h2) s2.
Proof. intros A B. induction A; cbn [app]; auto. econstructor; eauto. Qed.
Lemma run_split s h1 h2 s2 : run s (h1 ++ h2) s2 -> exists s1, run s h1 s1 /\ run s1 h2 s2.
Proof.
  revert s. induction h1 as [|e h1 IH]; intros s R; cbn [app] in R.
  - exists s. split; [constructor|exact R].
  - inversion R; subst. destruct (IH _ H5) as (s1' & A & B). exists s1'. split; auto.
    econstructor; eauto.
Qed.
Lemma reachable_run s h s' : reachable s -> run s h s' -> reachable s'.
Proof. intros (s0 & h0 & I & R) R'. exists s0, (h0 ++ h). split; auto. eapply run_app; eauto. Qed.

End WithPrims.
