(** Two concrete servers with the toy primitives, used only to show that the
    hypotheses of theorems can be met, and as witnesses of refutations. *)
From Verif Require Import Base ConstTime Prims HashDomains Wire Server Protocol Wp Inv Rules Calls PollRules System Trans.

Module Demo.
Definition P := Toy.prims.
Definition skA : bytes := [x0a].
Definition skB : bytes := [x0b].
Definition pkA := Eval vm_compute in skem_pk P skA.
Definition pkB := Eval vm_compute in skem_pk P skB.
Definition fresh (sk pk : bytes) : srv :=
  server_new sk pk (zeros 32) (zeros 32) (zeros 16) (zeros 16) (zeros 32).
Definition coin (b : byte) : coins :=
  {| c_sid := repeat b 4; c_kp := [b]; c_enc1 := [b; x01]; c_enc2 := [b; x02];
     c_bkey := repeat b 32; c_bnonce := repeat b 24; c_cookie := repeat b 16;
     c_secret := repeat b 16; c_xnonce := repeat b 24; c_pad := repeat b 996;
     c_jitter := 5; c_erase := fun _ => zeros 32 |}.
Definition tx : bytes := zeros 1100.
Definition psk : option bytes := Some (repeat x77 32).

Definition sent (r : res err outcome) : bytes :=
  match r with
  | Ok (RSent m) => m
  | Ok (RHandled {| mr_resp := Some m |}) => m
  | _ => []
  end.
Definition mk (t : time) (b : byte) (o : op) : call :=
  {| c_now := t; c_coins := coin b; c_op := o |}.

(** Setup: each knows the other. *)
Definition A0 := fresh skA pkA.
Definition B0 := fresh skB pkB.
Definition cA1 := mk 1 x01 (OAddPeer psk pkB Shake ExtensionWireguardPsk).
Definition cB1 := mk 1 x02 (OAddPeer psk pkA Shake ExtensionWireguardPsk).
Definition rA1 := Eval vm_compute in exec P cA1 A0.
Definition rB1 := Eval vm_compute in exec P cB1 B0.
Definition A1 := Eval vm_compute in fst rA1.
Definition B1 := Eval vm_compute in fst rB1.
(** The handshake. *)
Definition cA2 := mk (secs 1) xaa (OInitiate 0 tx).
Definition rA2 := Eval vm_compute in exec P cA2 A1.
Definition A2 := Eval vm_compute in fst rA2.
Definition m1 := Eval vm_compute in sent (snd rA2).
Definition cB2 := mk (secs 2) xbb (OMsg m1 tx).
Definition rB2 := Eval vm_compute in exec P cB2 B1.
Definition B2 := Eval vm_compute in fst rB2.
Definition m2 := Eval vm_compute in sent (snd rB2).
Definition cA3 := mk (secs 3) xcc (OMsg m2 tx).
Definition rA3 := Eval vm_compute in exec P cA3 A2.
Definition A3 := Eval vm_compute in fst rA3.
Definition m3 := Eval vm_compute in sent (snd rA3).
Definition cB3 := mk (secs 4) xdd (OMsg m3 tx).
Definition rB3 := Eval vm_compute in exec P cB3 B2.
Definition B3 := Eval vm_compute in fst rB3.
Definition m4 := Eval vm_compute in sent (snd rB3).
Definition cA4 := mk (secs 5) xee (OMsg m4 tx).
Definition rA4 := Eval vm_compute in exec P cA4 A3.
Definition A4 := Eval vm_compute in fst rA4.

Definition hA := [(cA1, snd rA1); (cA2, snd rA2); (cA3, snd rA3); (cA4, snd rA4)].
Definition hB := [(cB1, snd rB1); (cB2, snd rB2); (cB3, snd rB3)].

Lemma wf_coin b : wf_coins (coin b).
Proof.
  unfold wf_coins. cbn [coin c_sid c_bnonce c_cookie c_xnonce c_pad c_jitter].
  repeat match goal with |- _ /\ _ => split end; try apply repeat_length; lia.
Qed.

Lemma leb_le_c a b : Nat.leb a b = true -> a <= b.
Proof. apply Nat.leb_le. Qed.

Lemma step (s : srv) c r : valid c s -> exec P c s = r ->
  forall h s', run P (fst r) h s' -> run P s ((c, snd r) :: h) s'.
Proof. intros V E h s' R. econstructor; eauto. rewrite E. apply surjective_pairing. Qed.

Lemma step_if (Q : call -> srv -> Prop) (s : srv) c r : valid c s -> Q c s -> exec P c s = r ->
  forall h s', run_if P Q (fst r) h s' -> run_if P Q s ((c, snd r) :: h) s'.
Proof. intros V Hq E h s' R. econstructor; eauto. rewrite E. apply surjective_pairing. Qed.

Ltac okv := split; [apply wf_coin|]; cbn [c_op mk]; try exact Logic.I;
  try (split; [apply leb_le_c; vm_compute; reflexivity|]); apply leb_le_c; vm_compute; reflexivity.

Lemma runA : run P A0 hA A4.
Proof.
  unfold hA.
  apply step; [split; [apply wf_coin|exact Logic.I]|vm_compute; reflexivity|].
  change (fst rA1) with A1. apply step; [okv|vm_compute; reflexivity|].
  change (fst rA2) with A2. apply step; [okv|vm_compute; reflexivity|].
  change (fst rA3) with A3. apply step; [okv|vm_compute; reflexivity|].
  change (fst rA4) with A4. constructor.
Qed.
Lemma runB : run P B0 hB B3.
Proof.
  unfold hB.
  apply step; [split; [apply wf_coin|exact Logic.I]|vm_compute; reflexivity|].
  change (fst rB1) with B1. apply step; [okv|vm_compute; reflexivity|].
  change (fst rB2) with B2. apply step; [okv|vm_compute; reflexivity|].
  change (fst rB3) with B3. constructor.
Qed.

Lemma initA : initial A0.
Proof. unfold initial, A0, fresh. repeat eexists. Qed.
Lemma initB : initial B0.
Proof. unfold initial, B0, fresh. repeat eexists. Qed.

Lemma reach s h s' : initial s -> run P s h s' -> reachable P s'.
Proof. intros I R. exists s, h. auto. Qed.
Lemma reachA4 : reachable P A4.
Proof. exact (reach _ _ _ initA runA). Qed.
Lemma reachB3 : reachable P B3.
Proof. exact (reach _ _ _ initB runB). Qed.

(** The handshake really completes. *)
Lemma outcomes :
  (exists m, snd rA2 = Ok (RSent m) /\ length m = 1060) /\
  (exists m, snd rB2 = Ok (RHandled {| mr_exchanged := None; mr_resp := Some m |})) /\
  (exists m, snd rA3 = Ok (RHandled {| mr_exchanged := Some 0; mr_resp := Some m |})) /\
  (exists m, snd rB3 = Ok (RHandled {| mr_exchanged := Some 0; mr_resp := Some m |})) /\
  snd rA4 = Ok (RHandled {| mr_exchanged := None; mr_resp := None |}).
Proof.
  split; [|split; [|split; [|split]]]; try (eexists; split; reflexivity);
    try (eexists; reflexivity); reflexivity.
Qed.
End Demo.
