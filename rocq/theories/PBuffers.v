(** C88: views of buffers and messages set up in them. *)
From Verif Require Import Base Api Wire Builder AppIo PApi Buffers.

(** * Specification *)

(** [new] is [old] with the [length d] bytes from [off] on replaced by [d]. *)
Definition replaced (off : nat) (d old new : bytes) : Prop :=
  exists before mid after, old = before ++ mid ++ after /\ length before = off /\ length mid = length d /\ new = before ++ d ++ after.
(** A message with an empty payload: the code of the type, and zeros *)
Definition blank (k : kind) : bytes := code Resp k ++ zeros (payload_len Resp k).

(** * Parts *)

(** The parts that splitting gives are next to each other, they are the whole, and the one with the value has its size. *)
Theorem C88_split : forall n buf p, pt_off p + pt_len p <= length buf ->
  (n <= pt_len p -> exists h t h' t', split_prefix n p = Some (h, t) /\ split_suffix n p = Some (h', t') /\
     pt_len h = n /\ pt_len t' = n /\
     part_bytes buf p = part_bytes buf h ++ part_bytes buf t /\ part_bytes buf p = part_bytes buf h' ++ part_bytes buf t' /\
     length (part_bytes buf h) = n /\ length (part_bytes buf t') = n) /\
  (pt_len p < n -> split_prefix n p = None /\ split_suffix n p = None).
Proof.
  intros n buf [o l] F. cbn [pt_off pt_len] in *.
  assert (Sp : forall a, a <= l -> firstn l (skipn o buf) = firstn a (skipn o buf) ++ firstn (l - a) (skipn (o + a) buf)).
  { intros a La. replace (skipn (o + a) buf) with (skipn a (skipn o buf)) by apply skipn_skipn'.
    rewrite (firstn_skipn_comm (l - a) a (skipn o buf)). replace (a + (l - a)) with l by lia.
    rewrite <- (firstn_skipn a (firstn l (skipn o buf))) at 1. f_equal. rewrite firstn_firstn. f_equal. lia. }
  split.
  - intros L. unfold split_prefix, split_suffix, split_at_point, ensure_fit. cbn [pt_off pt_len].
    replace (Nat.leb n l) with true by (symmetry; apply Nat.leb_le; lia).
    replace (Nat.leb (l - n) l) with true by (symmetry; apply Nat.leb_le; lia).
    do 4 eexists. split; [reflexivity|]. split; [reflexivity|]. unfold part_bytes. cbn [pt_off pt_len].
    repeat split; try lia; try (apply Sp; lia); rewrite ?firstn_length, ?skipn_length; try lia.
  - intros L. unfold split_prefix, split_suffix, ensure_fit. cbn [pt_off pt_len].
    replace (Nat.leb n l) with false by (symmetry; apply Nat.leb_gt; lia). split; reflexivity.
Qed.
Print Assumptions C88_split.

(** Parsing takes a value from the whole buffer, its start or its end: the bytes are those, and parsing succeeds whenever they
    are there.  What was parsed can be looked at again without a panic. *)
Theorem C88_parse : forall n buf,
  (forall p, parse_whole n buf = Some p -> part_bytes buf p = buf /\ length buf = n) /\ (length buf = n -> parse_whole n buf <> None) /\
  (forall p, parse_prefix n buf = Some p -> part_bytes buf p = firstn n buf /\ length (part_bytes buf p) = n) /\ (n <= length buf -> parse_prefix n buf <> None) /\
  (forall p, parse_suffix n buf = Some p -> part_bytes buf p = skipn (length buf - n) buf /\ length (part_bytes buf p) = n) /\ (n <= length buf -> parse_suffix n buf <> None) /\
  (forall p, parse_whole n buf = Some p \/ parse_prefix n buf = Some p \/ parse_suffix n buf = Some p -> emancipate n p = Ok p).
Proof.
  intros n buf.
  assert (W : parse_whole n buf = if Nat.leb n (length buf) then if Nat.eqb (length buf) n then Some (whole buf) else None else None) by reflexivity.
  assert (Pp : parse_prefix n buf = if Nat.leb n (length buf) then Some {| pt_off := 0; pt_len := n |} else None).
  { unfold parse_prefix, from_prefix, split_prefix, split_at_point, ensure_fit, whole. cbn [pt_off pt_len].
    destruct (Nat.leb n (length buf)); [|reflexivity]. cbn [obind]. unfold make_ref, ensure_fit. cbn [pt_len].
    now rewrite Nat.leb_refl, Nat.eqb_refl. }
  assert (Ps : parse_suffix n buf = if Nat.leb n (length buf) then Some {| pt_off := length buf - n; pt_len := n |} else None).
  { unfold parse_suffix, from_suffix, split_suffix, split_at_point, ensure_fit, whole. cbn [pt_off pt_len].
    destruct (Nat.leb_spec n (length buf)) as [L|L]; [|reflexivity].
    replace (Nat.leb (length buf - n) (length buf)) with true by (symmetry; apply Nat.leb_le; lia).
    cbn [obind]. unfold make_ref, ensure_fit. cbn [pt_len]. replace (length buf - (length buf - n)) with n by lia.
    rewrite Nat.leb_refl, Nat.eqb_refl. reflexivity. }
  rewrite W, Pp, Ps. split; [|split; [|split; [|split; [|split; [|split]]]]].
  - intros p. destruct (Nat.leb n _); [|discriminate]. destruct (Nat.eqb_spec (length buf) n) as [E|]; [|discriminate].
    intros H. assert (p = whole buf) by congruence. subst p. split; [|assumption]. unfold part_bytes, whole. cbn [pt_off pt_len skipn]. apply firstn_all.
  - intros E. rewrite E, Nat.leb_refl, Nat.eqb_refl. discriminate.
  - intros p. destruct (Nat.leb_spec n (length buf)); [|discriminate]. intros E. assert (p = {| pt_off := 0; pt_len := n |}) by congruence. subst p.
    unfold part_bytes. cbn [pt_off pt_len skipn]. split; [reflexivity|]. rewrite firstn_length. lia.
  - intros L. apply Nat.leb_le in L. rewrite L. discriminate.
  - intros p. destruct (Nat.leb_spec n (length buf)); [|discriminate]. intros E.
    assert (p = {| pt_off := length buf - n; pt_len := n |}) by congruence. subst p.
    unfold part_bytes. cbn [pt_off pt_len]. assert (Ln : length (skipn (length buf - n) buf) = n) by (rewrite skipn_length; lia).
    rewrite firstn_all2 by lia. split; [reflexivity|assumption].
  - intros L. apply Nat.leb_le in L. rewrite L. discriminate.
  - intros p H. unfold emancipate. replace (Nat.eqb (pt_len p) n) with true; [reflexivity|]. symmetry. apply Nat.eqb_eq.
    destruct (Nat.leb n (length buf)); [|destruct H as [H|[H|H]]; discriminate].
    destruct (Nat.eqb_spec (length buf) n) as [E|]; destruct H as [H|[H|H]]; try discriminate.
    + assert (p = whole buf) by congruence. subst p. exact E.
    + assert (p = {| pt_off := 0; pt_len := n |}) by congruence. now subst p.
    + assert (p = {| pt_off := length buf - n; pt_len := n |}) by congruence. now subst p.
    + assert (p = {| pt_off := 0; pt_len := n |}) by congruence. now subst p.
    + assert (p = {| pt_off := length buf - n; pt_len := n |}) by congruence. now subst p.
Qed.
Print Assumptions C88_parse.

(** Zeros in the place of the value: where the buffer is too small nothing is found and nothing changes, except that the whole of a
    buffer is emptied even if its size is wrong. *)
Lemma zeroized_part n buf o : o + n <= length buf ->
  make_zeroized n buf {| pt_off := o; pt_len := n |} = (firstn o buf ++ zeros n ++ skipn (o + n) buf, Some {| pt_off := o; pt_len := n |}) /\
  replaced o (zeros n) buf (firstn o buf ++ zeros n ++ skipn (o + n) buf) /\
  part_bytes (firstn o buf ++ zeros n ++ skipn (o + n) buf) {| pt_off := o; pt_len := n |} = zeros n.
Proof.
  intros L. assert (Lo : length (firstn o buf) = o) by (rewrite firstn_length; lia). split; [|split].
  - unfold make_zeroized, make_ref, ensure_fit, part_set. cbn [pt_off pt_len]. now rewrite Nat.leb_refl, Nat.eqb_refl.
  - exists (firstn o buf), (firstn n (skipn o buf)), (skipn (o + n) buf).
    split; [rewrite <- skipn_skipn', firstn_skipn, firstn_skipn; reflexivity|]. split; [exact Lo|].
    split; [rewrite zeros_length, firstn_length, skipn_length; lia|reflexivity].
  - unfold part_bytes. cbn [pt_off pt_len]. rewrite skipn_app, Lo, Nat.sub_diag, skipn_O, skipn_all2 by lia. cbn [List.app].
    rewrite firstn_app, zeros_length, Nat.sub_diag, firstn_O, app_nil_r. apply firstn_all2. now rewrite zeros_length.
Qed.
Theorem C88_zeroized : forall n buf,
  (exists r, zeroized_whole n buf = (zeros (length buf), r) /\ (length buf = n -> exists p, r = Some p /\ part_bytes (zeros n) p = zeros n) /\ (length buf <> n -> r = None)) /\
  (n <= length buf -> exists new p, zeroized_prefix n buf = (new, Some p) /\ replaced 0 (zeros n) buf new /\ part_bytes new p = zeros n /\ pt_off p = 0) /\
  (n <= length buf -> exists new p, zeroized_suffix n buf = (new, Some p) /\ replaced (length buf - n) (zeros n) buf new /\ part_bytes new p = zeros n /\ pt_off p = length buf - n) /\
  (length buf < n -> zeroized_prefix n buf = (buf, None) /\ zeroized_suffix n buf = (buf, None)).
Proof.
  intros n buf. split; [|split; [|split]].
  - unfold zeroized_whole, make_zeroized, part_set, whole, make_ref, ensure_fit. cbn [pt_off pt_len]. rewrite firstn_O. cbn [List.app].
    rewrite Nat.add_0_l, skipn_all, app_nil_r. eexists. split; [reflexivity|]. split.
    + intros E. rewrite E, Nat.leb_refl, Nat.eqb_refl. eexists. split; [reflexivity|]. unfold part_bytes. cbn [pt_off pt_len skipn].
      apply firstn_all2. now rewrite zeros_length.
    + intros N. destruct (Nat.leb n (length buf)); [|reflexivity]. now rewrite (proj2 (Nat.eqb_neq _ _) N).
  - intros L. destruct (zeroized_part n buf 0 L) as (E & R & B).
    unfold zeroized_prefix, from_prefix, split_prefix, split_at_point, ensure_fit, whole. cbn [pt_off pt_len]. rewrite (proj2 (Nat.leb_le _ _) L), E.
    do 2 eexists. split; [reflexivity|]. split; [exact R|]. split; [exact B|reflexivity].
  - intros L. destruct (zeroized_part n buf (length buf - n)) as (E & R & B); [lia|].
    unfold zeroized_suffix, from_suffix, split_suffix, split_at_point, ensure_fit, whole. cbn [pt_off pt_len]. rewrite (proj2 (Nat.leb_le _ _) L).
    replace (Nat.leb (length buf - n) (length buf)) with true by (symmetry; apply Nat.leb_le; lia).
    rewrite Nat.add_0_l. replace (length buf - (length buf - n)) with n by lia. rewrite E.
    do 2 eexists. split; [reflexivity|]. split; [exact R|]. split; [exact B|reflexivity].
  - intros L. unfold zeroized_prefix, zeroized_suffix, from_prefix, from_suffix, split_prefix, split_suffix, ensure_fit, whole. cbn [pt_off pt_len].
    rewrite (proj2 (Nat.leb_gt _ _) L). split; reflexivity.
Qed.
Print Assumptions C88_zeroized.

(** * Messages *)

Lemma set_len buf p d : pt_off p + pt_len p <= length buf -> length d = pt_len p -> length (part_set buf p d) = length buf.
Proof. intros F L. unfold part_set. rewrite !app_length, firstn_length, skipn_length. lia. Qed.
Lemma setup_exact k buf p : pt_off p + pt_len p <= length buf -> pt_len p = message_size Resp k ->
  exists new, setup Resp k buf p = (new, Some p) /\ replaced (pt_off p) (blank k) buf new.
Proof.
  intros F L. unfold setup, make_zeroized, make_ref, ensure_fit. rewrite L, Nat.leb_refl, Nat.eqb_refl. eexists. split; [reflexivity|].
  exists (firstn (pt_off p) buf), (part_bytes buf p), (skipn (pt_off p + pt_len p) buf). split; [|split; [|split]].
  - unfold part_bytes. rewrite <- skipn_skipn', firstn_skipn, firstn_skipn. reflexivity.
  - rewrite firstn_length. lia.
  - unfold part_bytes, blank. rewrite app_length, code_length, zeros_length, firstn_length, skipn_length. rewrite <- size_code. lia.
  - unfold init, part_set. cbn [pt_off pt_len]. rewrite enc_code. unfold blank. rewrite <- L.
    assert (L0 : length (firstn (pt_off p) buf) = pt_off p) by (rewrite firstn_length; lia).
    rewrite firstn_app, L0, Nat.sub_diag, firstn_O, app_nil_r, firstn_firstn, Nat.min_id.
    f_equal. rewrite <- app_assoc. f_equal. rewrite skipn_app, L0. rewrite (skipn_all2 (firstn _ _)) by lia. cbn [List.app].
    replace (pt_off p + 16 - pt_off p) with 16 by lia. rewrite skipn_app, zeros_length. rewrite L, size_code.
    replace (16 - (16 + payload_len Resp k)) with 0 by lia. rewrite skipn_O. reflexivity.
Qed.

(** Setting up a response in a buffer of exactly its size, or at the start of a larger one: the bytes there become the code of
    the response and zeros, and no other byte is touched.  This is the part of C88 that holds. *)
Theorem C88_setup_partial : forall k buf,
  (length buf = 16 + payload_len Resp k -> exists new p, setup_response k buf = (new, Some p) /\ new = blank k /\ part_bytes new p = blank k) /\
  (16 + payload_len Resp k <= length buf -> exists new p, setup_response_from_prefix k buf = (new, Some p) /\
     replaced 0 (blank k) buf new /\ part_bytes new p = blank k).
Proof.
  intros k buf. assert (Lb : length (blank k) = message_size Resp k) by (unfold blank; rewrite app_length, code_length, zeros_length; apply eq_sym, size_code).
  split.
  - intros L. destruct (setup_exact k buf (whole buf)) as (new & E & b & m & a & Eo & Lo & Lm & En); [cbn [whole pt_off pt_len]; lia|cbn [whole pt_len]; rewrite size_code; lia|].
    exists new, (whole buf). split; [exact E|]. cbn [whole pt_off] in Lo. destruct b; [|discriminate]. cbn [List.app] in *.
    assert (a = []). { apply length_zero_iff_nil. apply (f_equal (@length _)) in Eo. rewrite app_length in Eo. rewrite Lb, size_code in Lm. lia. }
    subst a. rewrite app_nil_r in En. split; [assumption|]. unfold part_bytes, whole. cbn [pt_off pt_len skipn]. subst new.
    apply firstn_all2. rewrite Lb, size_code. lia.
  - intros L. unfold setup_response_from_prefix, from_prefix, split_prefix, split_at_point, ensure_fit, whole. cbn [pt_off pt_len].
    replace (Nat.leb _ _) with true by (symmetry; apply Nat.leb_le; rewrite size_code; lia).
    destruct (setup_exact k buf {| pt_off := 0; pt_len := message_size Resp k |}) as (new & E & R); [cbn [pt_off pt_len]; rewrite size_code; lia|reflexivity|].
    exists new, {| pt_off := 0; pt_len := message_size Resp k |}. split; [exact E|]. split; [exact R|].
    destruct R as (b & m & a & _ & Lo & _ & ->). cbn [pt_off] in Lo. destruct b; [|discriminate]. unfold part_bytes. cbn [pt_off pt_len skipn List.app].
    rewrite firstn_app, Lb, Nat.sub_diag, firstn_O, app_nil_r. apply firstn_all2. lia.
Qed.
Print Assumptions C88_setup_partial.

(** The full property has that [setup_response_from_suffix] does so at the end of the buffer.  It does it at the start: in every
    buffer that is large enough, the bytes behind the first message are left as they were. *)
Theorem C88_suffix_refuted : forall k buf, 16 + payload_len Resp k <= length buf ->
  exists new p, setup_response_from_suffix k buf = (new, Some p) /\ replaced 0 (blank k) buf new /\ pt_off p = 0.
Proof.
  intros k buf L. unfold setup_response_from_suffix, from_prefix, split_prefix, split_at_point, ensure_fit, whole. cbn [pt_off pt_len].
  replace (Nat.leb _ _) with true by (symmetry; apply Nat.leb_le; rewrite size_code; lia).
  destruct (setup_exact k buf {| pt_off := 0; pt_len := message_size Resp k |}) as (new & E & R); [cbn [pt_off pt_len]; rewrite size_code; lia|reflexivity|].
  exists new, {| pt_off := 0; pt_len := message_size Resp k |}. split; [exact E|]. split; [exact R|reflexivity].
Qed.
Print Assumptions C88_suffix_refuted.
(** So the message is not at the end. *)
Theorem C88_suffix_not_at_end_refuted : exists k buf new p, 16 + payload_len Resp k <= length buf /\
  setup_response_from_suffix k buf = (new, Some p) /\ ~ replaced (length buf - (16 + payload_len Resp k)) (blank k) buf new.
Proof.
  exists SupplyKeypair, (repeat x01 64). do 2 eexists. split; [vm_compute; lia|]. split; [vm_compute; reflexivity|].
  intros (b & m & a & E & Lb & Lm & En). assert (Lb' : length b = 32) by exact Lb.
  apply (f_equal (firstn 32)) in En. rewrite firstn_app, Lb', Nat.sub_diag, firstn_O, app_nil_r in En. rewrite (firstn_all2 b) in En by lia.
  apply (f_equal (firstn 32)) in E. rewrite firstn_app, Lb', Nat.sub_diag, firstn_O, app_nil_r in E. rewrite (firstn_all2 b) in E by lia.
  rewrite <- E in En. vm_compute in En. discriminate En.
Qed.
Print Assumptions C88_suffix_not_at_end_refuted.

(** A buffer of the wrong size is refused; by [setup_response] after it has been filled with zeros, also when it is larger than
    the message, and otherwise untouched. *)
Theorem C88_wrong_size : forall k buf,
  (length buf <> 16 + payload_len Resp k -> setup_response k buf = (zeros (length buf), None)) /\
  (length buf < 16 + payload_len Resp k -> setup_response_from_prefix k buf = (buf, None)).
Proof.
  intros k buf. split; intros L.
  - unfold setup_response, setup, make_zeroized, make_ref, ensure_fit, whole, part_set. cbn [pt_off pt_len].
    replace (if Nat.leb (message_size Resp k) (length buf) then if Nat.eqb (length buf) (message_size Resp k) then _ else None else None) with (@None part).
    2: { destruct (Nat.eqb_spec (length buf) (message_size Resp k)) as [E|]; [rewrite size_code in E; contradiction|]. now destruct (Nat.leb _ _). }
    rewrite firstn_O, skipn_all2 by lia. cbn [List.app]. now rewrite app_nil_r.
  - unfold setup_response_from_prefix, from_prefix, split_prefix, ensure_fit, whole. cbn [pt_len].
    replace (Nat.leb _ _) with false; [reflexivity|]. symmetry. apply Nat.leb_gt. rewrite size_code. lia.
Qed.
Print Assumptions C88_wrong_size.

(** What was set up at the start is read back as a response of that kind. *)
Theorem C88_read_back : forall k buf new p, setup_response_from_prefix k buf = (new, Some p) ->
  parse_from_prefix Resp new = Some (k, blank k).
Proof.
  intros k buf new p H. destruct (Nat.le_gt_cases (16 + payload_len Resp k) (length buf)) as [L|L].
  - destruct (proj2 (C88_setup_partial k buf) L) as (new' & p' & E & (b & m & a & _ & Lo & _ & En) & _).
    assert (X : new = new') by congruence. rewrite X, En. destruct b; [|discriminate]. cbn [List.app].
    apply prefix_parse. exists (zeros (payload_len Resp k)), a. unfold blank. rewrite <- app_assoc. split; [reflexivity|]. split; [apply zeros_length|reflexivity].
  - rewrite (proj2 (C88_wrong_size k buf) L) in H. discriminate.
Qed.
Print Assumptions C88_read_back.

(** Non-vacuity *)
Example C88_witness : fst (setup_response_from_prefix AddPskBroker (repeat xff 40)) =
  [xbd;x25;xe4;x18;xff;xb0;x69;x30;x24;x8b;x21;x7e;x2f;xae;xe3;x53] ++ zeros 16 ++ repeat xff 8 /\
  parse_suffix 3 (map n2b [1; 2; 3; 4; 5]%N) = Some {| pt_off := 2; pt_len := 3 |}.
Proof. split; vm_compute; reflexivity. Qed.
