(** C16, the rest: the nonce of a biscuit is the one that was drawn for it, but for the bit that names the key. *)
From Verif Require Import Base ConstTime Prims HashDomains Wire Server Protocol Wp Inv Rules Calls PollRules System Trans.
From Verif Require Import Spec Demo PReplay PTiming.

(** Two bytes that agree in their lower seven bits. *)
Definition low7 (a b : byte) : Prop := forall i, (i < 7)%N -> N.testbit (b2n a) i = N.testbit (b2n b) i.

Lemma tag_low7 (i : bool) b : low7 (n2b (N.lor (N.land (b2n b) 127) (if i then 128 else 0))) b.
Proof.
  assert (forall b, let t := n2b (N.lor (N.land (b2n b) 127) (if i then 128 else 0)) in
    forall k, In k (map N.of_nat (seq 0 7)) -> N.testbit (b2n t) k = N.testbit (b2n b) k) as H.
  { destruct i; intros []; vm_compute; intros k Hk;
      repeat (destruct Hk as [<-|Hk]; [reflexivity|]); destruct Hk. }
  intros k Hk. apply H. rewrite in_map_iff. exists (N.to_nat k). split; [apply N2Nat.id|]. apply in_seq. lia.
Qed.

(** Of the 24 bytes a RespHello's biscuit starts with, all but one bit are the nonce that was drawn in this call; the session id of the
    responder is the one that was drawn.  The other bit names the key the biscuit opens with (C15_issued_under_young_key). *)
Theorem C16_nonce_drawn : forall P s c rx s' r m,
  reachable P s -> valid c s -> received c = Some rx -> exec P c s = (s', r) -> replied r m -> is_type x82 m ->
  exists b0 d0 rest,
    firstn 24 (resp_biscuit m) = b0 :: rest /\ c_bnonce (c_coins c) = d0 :: rest /\ low7 b0 d0 /\
    resp_sidr m = c_sid (c_coins c).
Proof.
  intros P s c rx s' r m (s0 & h & I0 & R) V Rc E Rp Ty.
  pose proof (run_inv P _ _ _ (initial_inv P _ I0) R) as I.
  assert (forall now c0 tx t t' r0 o, wf_coins c0 -> inv P t -> (1100 <= length tx)%nat ->
    msgstep P now c0 rx tx t t' r0 -> r0 = Ok {| mr_exchanged := o; mr_resp := Some m |} ->
    exists b0 d0 rest, firstn 24 (resp_biscuit m) = b0 :: rest /\ c_bnonce c0 = d0 :: rest /\ low7 b0 d0 /\
      resp_sidr m = c_sid c0) as K.
  { intros now c0 tx t t' r0 o W It LT M Er.
    destruct M as [e|q x ck a e FT L T|q x ck FT L T CS
    |q x h' ic core s1 FT L Hi Hp Hh Hs Hno Hc CS R'
    |q x h' ic core s1 FT L Hi Hp Hh Hs Hno Hc CS R'
    |q x k' FT L EK Hp Hk Hm CS
    |e s1 s2 FT L EK F1 F2 K1 K2
    |u0 a q x bno core s1 e FT L EK HA K0 K1 HI SF R'
    |u0 q x bno core s1 s2 FT L EK HA K0 K1 HI SF R' CS R2
    |q x h' u FT L Hi Hp Hh Hs Hno Hu CS Ht D
    |q x h' u s1 pt FT L Hi Hp Hh Hs Hno Hu CS Ht D R'
    |q x h' mac v FT L Hi Hp Hd Hh Hm D
    |q x h' mac v FT L Hi Hp Hd Hh Hm D]; try discriminate Er;
    unfold handled in Er; injection Er as _ Er; subst m;
    try (exfalso; revert Ty; now apply commit_not).
    pose proof (rh_msg_fields P now c0 t x (parse_ih (env_payload IH_LEN rx)) (p_alg x) ck tx) as F.
    cbn zeta in F. edestruct F as (-> & _ & ->); auto; [apply (wf_rx_ih rx L)|apply (i_bctr P t It)|].
    unfold rh_of. cbn [rh_biscuit]. unfold biscuit_ct, xenc.
    destruct W as (_ & W & _). rewrite firstn_app, tag_nonce_len, W, Nat.sub_diag, app_nil_r.
    rewrite firstn_all2 by (rewrite tag_nonce_len, W; lia).
    destruct (c_bnonce c0) as [|d0 rest]; [discriminate W|]. unfold tag_nonce.
    eexists _, d0, rest. split; [reflexivity|]. split; [reflexivity|]. split; [apply tag_low7|reflexivity]. }
  destruct Rp as (o & ->).
  destruct (handled_msgstep P c rx s s' _ I V Rc E) as (tx & t & Ht & LT & [M|(FT & Es & _ & m' & Em & T')]).
  - destruct V as [W _]. destruct Ht as [->| ->].
    + eapply K; eauto.
    + eapply K; try exact M; eauto. exact (g_inv _ _ _ (cs_choice_good P _ _ _ I)).
  - exfalso. cbn [mr_resp] in Em. injection Em as ->. unfold is_type in *. congruence.
Qed.
Print Assumptions C16_nonce_drawn.

(** So two RespHello messages never carry the same biscuit, of whichever servers, unless the drawn nonces agree in 191 bits. *)
Theorem C16_biscuits_differ : forall P s1 c1 rx1 t1 r1 m1 s2 c2 rx2 t2 r2 m2,
  reachable P s1 -> valid c1 s1 -> received c1 = Some rx1 -> exec P c1 s1 = (t1, r1) -> replied r1 m1 -> is_type x82 m1 ->
  reachable P s2 -> valid c2 s2 -> received c2 = Some rx2 -> exec P c2 s2 = (t2, r2) -> replied r2 m2 -> is_type x82 m2 ->
  resp_biscuit m1 = resp_biscuit m2 ->
  tl (c_bnonce (c_coins c1)) = tl (c_bnonce (c_coins c2)) /\
  low7 (hd x00 (c_bnonce (c_coins c1))) (hd x00 (c_bnonce (c_coins c2))).
Proof.
  intros P s1 c1 rx1 t1 r1 m1 s2 c2 rx2 t2 r2 m2 A1 B1 C1 D1 E1 F1 A2 B2 C2 D2 E2 F2 Eq.
  destruct (C16_nonce_drawn P s1 c1 rx1 t1 r1 m1 A1 B1 C1 D1 E1 F1) as (b & d & l & G1 & H1 & L1 & _).
  destruct (C16_nonce_drawn P s2 c2 rx2 t2 r2 m2 A2 B2 C2 D2 E2 F2) as (b' & d' & l' & G2 & H2 & L2 & _).
  rewrite Eq, G2 in G1. injection G1 as -> ->. rewrite H1, H2. cbn [tl hd]. split; [reflexivity|].
  intros i Hi. now rewrite <- L1, <- L2.
Qed.
Print Assumptions C16_biscuits_differ.

(** A RespHello with the second key: the drawn byte 0xbb becomes 0xbb or 0x3b according to the key. *)
Example C16_nonce_nonvacuous :
  received Demo.cB2 = Some Demo.m1 /\ replied (snd Demo.rB2) Demo.m2 /\ is_type x82 Demo.m2 /\
  c_bnonce (c_coins Demo.cB2) = repeat (hd x00 (c_bnonce (c_coins Demo.cB2))) 24 /\
  low7 x3b xbb /\ ~ low7 x3a xbb.
Proof.
  split; [reflexivity|]. split; [eexists; reflexivity|]. split; [reflexivity|]. split; [reflexivity|]. split.
  - intros i Hi. assert (i = 0 \/ i = 1 \/ i = 2 \/ i = 3 \/ i = 4 \/ i = 5 \/ i = 6)%N as K by lia.
    destruct K as [->|[->|[->|[->|[->|[->| ->]]]]]]; reflexivity.
  - intros H. specialize (H 0%N eq_refl). discriminate H.
Qed.
