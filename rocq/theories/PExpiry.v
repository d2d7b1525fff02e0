(** C100: what a server accepts in a handshake has a limited age.  It keeps no biscuit key that was 600 s old at its last poll, and
    takes no cookie whose secret is 240 s old.  Not so the initiator's side: it goes on using a cookie for as long as the handshake
    lasts, and the secret of cookies is not changed every 120 s. *)
From Verif Require Import Base ConstTime Prims HashDomains Wire Server Protocol Wp Inv Rules Calls PollRules System Trans.
From Verif Require Import Spec Transcript Forward Demo PSafety PReplay PPoll PTiming PNotice PRetransmit PCookie.
Local Open Scope Z_scope.

(** A key that has not sealed a biscuit: it replaced one that was erased, or was made with the server. *)
Definition unused (t : time) : Prop := t < 0.

(** The two biscuit keys of a server, and the times they were made. *)
Definition key_made (s : srv) (b : bool) : time := cs_created (if b then s_bk1 s else s_bk0 s).

Lemma made_step P s c s' r t : reachable P s -> valid c s -> exec P c s = (s', r) -> t <= c_now c ->
  (forall b, unused (key_made s b) \/ t + 2500 <= key_made s b + secs 600) ->
  forall b, unused (key_made s' b) \/ t + 2500 <= key_made s' b + secs 600.
Proof.
  intros Rs V E Lt K b. unfold key_made, unused in *. change (secs 600) with 600000000 in *.
  assert ({c_op c = OPoll} + {c_op c <> OPoll}) as [Eo|Eo] by (destruct (c_op c); auto; right; discriminate).
  - destruct (C15_old_key_erased P s c s' r Rs V Eo E) as (O0 & O1 & N0 & N1).
    destruct b.
    + destruct (Z.lt_ge_cases (cs_created (s_bk1 s)) 0) as [L|L];
        [rewrite N1 by (unfold old_key; lia); left; lia|].
      destruct (Z.lt_ge_cases (cs_created (s_bk1 s) + secs 600) (c_now c + 2500)) as [L'|L'].
      * left. apply O1. split; assumption.
      * right. rewrite N1 by (unfold old_key; lia). change (secs 600) with 600000000 in *. lia.
    + destruct (Z.lt_ge_cases (cs_created (s_bk0 s)) 0) as [L|L];
        [rewrite N0 by (unfold old_key; lia); left; lia|].
      destruct (Z.lt_ge_cases (cs_created (s_bk0 s) + secs 600) (c_now c + 2500)) as [L'|L'].
      * left. apply O0. split; assumption.
      * right. rewrite N0 by (unfold old_key; lia). change (secs 600) with 600000000 in *. lia.
  - destruct (keyed_exec P c s s' r (reachable_inv P s Rs) V E Eo) as [H|(N0 & N1 & [[H L]|[H L]])];
      unfold slots in H; injection H as H0 H1; rewrite H0, H1.
    + exact (K b).
    + destruct b; [exact (K true)|]. right. cbn [fresh_key cs_created]. lia.
    + destruct b; [|exact (K false)]. right. cbn [fresh_key cs_created]. lia.
Qed.

(** After a poll at time [t], and whatever is called later, a server has no biscuit key that was 600 s old at [t] (to 2.5 ms). *)
Theorem C100_biscuit_keys_expire : forall P s cp s1 r h s2,
  reachable P s -> valid cp s -> c_op cp = OPoll -> exec P cp s = (s1, r) ->
  run P s1 h s2 -> (forall c q, In (c, q) h -> c_now cp <= c_now c) ->
  forall b, unused (key_made s2 b) \/ c_now cp + 2500 <= key_made s2 b + secs 600.
Proof.
  intros P s cp s1 r h s2 Rs V Eo E R Le.
  assert (Rs1 : reachable P s1) by (eapply reachable_run; [exact Rs|econstructor; [exact V|exact E|constructor]]).
  assert (K : forall b, unused (key_made s1 b) \/ c_now cp + 2500 <= key_made s1 b + secs 600).
  { intros b. destruct (C15_old_key_erased P s cp s1 r Rs V Eo E) as (O0 & O1 & N0 & N1). unfold key_made, unused, old_key in *.
    change (secs 600) with 600000000 in *. destruct b.
    - destruct (Z.lt_ge_cases (cs_created (s_bk1 s)) 0) as [L|L]; [rewrite N1 by lia; auto|].
      destruct (Z.lt_ge_cases (cs_created (s_bk1 s) + 600000000) (c_now cp + 2500)) as [L'|L'].
      + left. apply O1. lia.
      + right. rewrite N1 by lia. lia.
    - destruct (Z.lt_ge_cases (cs_created (s_bk0 s)) 0) as [L|L]; [rewrite N0 by lia; auto|].
      destruct (Z.lt_ge_cases (cs_created (s_bk0 s) + 600000000) (c_now cp + 2500)) as [L'|L'].
      + left. apply O0. lia.
      + right. rewrite N0 by lia. lia. }
  clear Rs V Eo E. induction R as [s1|s1 c q s3 h s2 V E R IH]; [exact K|].
  apply IH.
  - intros c' q' I. apply (Le c' q'). now right.
  - eapply reachable_run; [exact Rs1|econstructor; [exact V|exact E|constructor]].
  - eapply made_step; eauto. apply (Le c q). now left.
Qed.
Print Assumptions C100_biscuit_keys_expire.

(** So an InitConf completes an exchange only if its biscuit opens with such a key. *)
Theorem C100_biscuits_expire : forall P s cp s1 r h s2 c rx s3 q p,
  reachable P s -> valid cp s -> c_op cp = OPoll -> exec P cp s = (s1, r) ->
  run P s1 h s2 -> (forall c q, In (c, q) h -> c_now cp <= c_now c) ->
  valid c s2 -> received c = Some rx -> is_type x83 rx -> exec P c s2 = (s3, q) -> exchanged q p ->
  exists x pt, nth_error (s_peers s2) p = Some x /\
    biscuit_opens P (p_alg x) (s_spkm s2) (named_key s2 (conf_biscuit rx)) (conf_sidi rx) (conf_sidr rx) (conf_biscuit rx) pt /\
    (unused (named_created s2 (conf_biscuit rx)) \/
     c_now cp + 2500 <= named_created s2 (conf_biscuit rx) + secs 600).
Proof.
  intros P s cp s1 r h s2 c rx s3 q p Rs V Eo E R Le Vc Rc Ty Ec Ex.
  assert (Rs2 : reachable P s2).
  { eapply reachable_run; [eapply reachable_run; [exact Rs|econstructor; [exact V|exact E|constructor]]|exact R]. }
  destruct (accepted_conf P c rx s2 s3 q p (reachable_inv P s2 Rs2) Vc Rc Ty Ec Ex) as (x & x' & pt & X & _ & O & _).
  exists x, pt. split; [exact X|]. split; [exact O|].
  pose proof (C100_biscuit_keys_expire P s cp s1 r h s2 Rs V Eo E R Le) as K. unfold named_created.
  destruct (conf_biscuit rx) as [|b l]; [exact (K false)|]. destruct (N.testbit (b2n b) 7); [exact (K true)|exact (K false)].
Qed.
Print Assumptions C100_biscuits_expire.

(** Under load an InitHello is answered with a RespHello only if it has the cookie for its sender from a secret that is younger
    than 240 s, or was drawn just now.  Missing for the full property: the secret is not changed every 120 s, and the initiator does
    not drop a cookie after 120 s (both refuted below). *)
Theorem C100_cookies_expire_partial : forall P s c rx tx host s' o m,
  reachable P s -> valid c s -> c_op c = OLoad rx tx host -> is_type x81 rx ->
  exec P c s = (s', Ok (RHandled {| mr_exchanged := o; mr_resp := Some m |})) -> is_type x82 m ->
  exists secret, usable_secret c s secret /\ has_cookie P secret host rx.
Proof.
  intros P s c rx tx host s' o m Rs V Eo Ty E Tm. pose proof (reachable_inv P s Rs) as I.
  pose proof (exec_load_ok P c rx tx host s s' _ I V Eo E) as M.
  pose proof (first_type_of _ _ Ty) as FT. cbn [mt_of] in FT.
  remember (Ok {| mr_exchanged := o; mr_resp := Some m |}) as r0 eqn:Er.
  destruct M as [e|s1 r F M1|s1 r F L CV M1|e F|i l F L EL CV]; try discriminate.
  - rewrite FT in F. discriminate F.
  - apply cookie_valid_spec in CV; [|exact L]. destruct CV as (i & Hi & HC).
    eexists. split; [|exact HC]. unfold usable_secret.
    pose proof (cs_choice_spec (c_now c) (c_coins c) s) as CC. cbn zeta in CC.
    destruct CC as [(A & _ & B)|(B & j & A & El & _)].
    + left. exists i. rewrite A. split; [now apply B|reflexivity].
    + right. split; [exact B|]. rewrite A. rewrite El in Hi. destruct Hi as [<-|[]]. destruct j; reflexivity.
  - exfalso. injection Er as _ Er. subst m. discriminate Tm.
Qed.
Print Assumptions C100_cookies_expire_partial.

(** The key that sealed the biscuit of the demo's RespHello was made at 1 s: an InitConf with that biscuit completes the exchange,
    and after a poll at 700 s it is refused. *)
Definition cP700 := Demo.mk (secs 700) xd5 OPoll.
Definition rP700 := Eval vm_compute in exec Demo.P cP700 Demo.B2.
Definition cM701 := Demo.mk (secs 701) xd6 (OMsg Demo.m3 Demo.tx).
Example C100_biscuit_example :
  reachable Demo.P Demo.B2 /\ valid cP700 Demo.B2 /\ exec Demo.P cP700 Demo.B2 = (fst rP700, snd rP700) /\
  (exists q, exchanged (snd (exec Demo.P Demo.cB3 Demo.B2)) q) /\ c_op Demo.cB3 = OMsg Demo.m3 Demo.tx /\
  0 <= key_made Demo.B2 true /\ (forall b, unused (key_made (fst rP700) b)) /\
  exists e, snd (exec Demo.P cM701 (fst rP700)) = Err e.
Proof.
  split.
  { apply (Demo.reach Demo.B0 [(Demo.cB1, snd Demo.rB1); (Demo.cB2, snd Demo.rB2)]); [exact Demo.initB|].
    apply Demo.step; [split; [apply Demo.wf_coin|exact Logic.I]|vm_compute; reflexivity|].
    change (fst Demo.rB1) with Demo.B1. apply Demo.step; [Demo.okv|vm_compute; reflexivity|]. constructor. }
  split; [Demo.okv|]. split; [vm_compute; reflexivity|].
  split; [eexists; eexists; vm_compute; reflexivity|]. split; [reflexivity|].
  split; [vm_compute; discriminate|]. split; [intros []; vm_compute; reflexivity|].
  eexists. vm_compute. reflexivity.
Qed.

(** The full property is false of the initiator: the white paper has it drop a cookie after 120 s.  Here it took the cookie at 3 s
    and is told at 170 s to send the InitHello again; the message still has the cookie. *)
Definition cP170 := Demo.mk (secs 170) xd7 OPoll.
Definition rP170 := Eval vm_compute in exec Demo.P cP170 AL2.
Definition cR170 := Demo.mk (secs 170) xd8 (ORetransmit 0 Demo.tx).
Theorem C100_stored_cookie_refuted : exists s c s1 s2 s3 m,
  reachable Demo.P s /\ valid c s /\ c_now c = secs 3 /\ (exists rx tx, c_op c = OMsg rx tx /\ is_type x86 rx) /\
  exec Demo.P c s = (s1, Ok (RHandled {| mr_exchanged := None; mr_resp := None |})) /\
  valid cP170 s1 /\ exec Demo.P cP170 s1 = (s2, Ok (RPolled (SendRetransmission 0))) /\
  valid cR170 s2 /\ exec Demo.P cR170 s2 = (s3, Ok (RSent m)) /\
  is_type x81 m /\ slice 1044 16 m <> repeat x00 16.
Proof.
  exists Demo.A2, cL2, AL2, (fst rP170), (fst rP170), mR.
  split; [exact reachA2|]. split; [Demo.okv|]. split; [reflexivity|].
  split; [eexists; eexists; split; reflexivity|]. split; [vm_compute; reflexivity|].
  split; [Demo.okv|]. split; [vm_compute; reflexivity|]. split; [Demo.okv|].
  split; [vm_compute; reflexivity|]. split; [reflexivity|]. vm_compute. discriminate.
Qed.
Print Assumptions C100_stored_cookie_refuted.

(** Nor does the responder change the secret every 120 s: it is drawn at 2 s and the reply at 241 s is still made with it.  So
    the cookie it gives out then is refused 2 s later: the message that has it is answered by another CookieReply. *)
Definition cL241 := Demo.mk (secs 241) xd9 (OLoad Demo.m1 Demo.tx host).
Definition rL241 := Eval vm_compute in exec Demo.P cL241 BL1.
Definition cL243 := Demo.mk (secs 243) xda (OLoad mR Demo.tx host).
Definition rL243 := Eval vm_compute in exec Demo.P cL243 (fst rL241).
Theorem C100_secret_rotation_refuted : exists s s1 m1 s2 m2 mh s3 m3,
  reachable Demo.P s /\ valid cL1 s /\ c_now cL1 = secs 2 /\
  exec Demo.P cL1 s = (s1, Ok (RHandled {| mr_exchanged := None; mr_resp := Some m1 |})) /\ is_type x86 m1 /\
  (forall i, ~ live (secs 2) (get_cs i s)) /\
  valid cL241 s1 /\ c_now cL241 = secs 241 /\
  exec Demo.P cL241 s1 = (s2, Ok (RHandled {| mr_exchanged := None; mr_resp := Some m2 |})) /\ is_type x86 m2 /\
  s_cs0 s2 = s_cs0 s1 /\ s_cs1 s2 = s_cs1 s1 /\
  (exists i, live (secs 241) (get_cs i s2) /\ has_cookie Demo.P (cs_value (get_cs i s2)) host mh) /\
  valid cL243 s2 /\ c_op cL243 = OLoad mh Demo.tx host /\ c_now cL243 = secs 243 /\
  exec Demo.P cL243 s2 = (s3, Ok (RHandled {| mr_exchanged := None; mr_resp := Some m3 |})) /\ is_type x86 m3.
Proof.
  exists Demo.B1, BL1, mc1, (fst rL241), (Demo.sent (snd rL241)), mR, (fst rL243), (Demo.sent (snd rL243)).
  split; [exact reachB1|]. split; [Demo.okv|]. split; [reflexivity|]. split; [vm_compute; reflexivity|]. split; [reflexivity|].
  split; [intros [] [L _]; vm_compute in L; now apply L|].
  split; [Demo.okv|]. split; [reflexivity|]. split; [vm_compute; reflexivity|]. split; [reflexivity|].
  split; [reflexivity|]. split; [reflexivity|].
  split; [exists true; split; [split; vm_compute; discriminate|vm_compute; reflexivity]|].
  split; [Demo.okv|]. split; [reflexivity|]. split; [reflexivity|]. split; [vm_compute; reflexivity|]. reflexivity.
Qed.
Print Assumptions C100_secret_rotation_refuted.
