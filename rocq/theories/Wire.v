(** Model of rosenpass/src/msgs.rs: packed message layouts. *)
From Verif Require Import Base.

(** msgs.rs:403-417 [MsgType] with its numeric codes. *)
Inductive msg_type := MInitHello | MRespHello | MInitConf | MEmptyData | MCookieReply.

(** msgs.rs:423-427 [From<MsgType> for u8]. *)
Definition mt_code (t : msg_type) : byte :=
  match t with
  | MInitHello => x81 | MRespHello => x82 | MInitConf => x83
  | MEmptyData => x84 | MCookieReply => x86
  end.

(** msgs.rs:403-421 [TryFromPrimitive for MsgType]. *)
Definition mt_of (b : byte) : option msg_type :=
  match b with
  | x81 => Some MInitHello | x82 => Some MRespHello | x83 => Some MInitConf
  | x84 => Some MEmptyData | x86 => Some MCookieReply
  | _ => None
  end.

(** msgs.rs:131-142 [InitHello]. *)
Record init_hello := { ih_sidi : bytes; ih_epki : bytes; ih_sctr : bytes;
                       ih_pidi_ct : bytes; ih_auth : bytes }.
Definition ser_ih (m : init_hello) : bytes :=
  ih_sidi m ++ ih_epki m ++ ih_sctr m ++ ih_pidi_ct m ++ ih_auth m.
Definition parse_ih (p : bytes) : init_hello :=
  {| ih_sidi := slice 0 4 p; ih_epki := slice 4 800 p; ih_sctr := slice 804 156 p;
     ih_pidi_ct := slice 960 48 p; ih_auth := slice 1008 16 p |}.

(** msgs.rs:180-193 [RespHello]. *)
Record resp_hello := { rh_sidr : bytes; rh_sidi : bytes; rh_ecti : bytes;
                       rh_scti : bytes; rh_auth : bytes; rh_biscuit : bytes }.
Definition ser_rh (m : resp_hello) : bytes :=
  rh_sidr m ++ rh_sidi m ++ rh_ecti m ++ rh_scti m ++ rh_auth m ++ rh_biscuit m.
Definition parse_rh (p : bytes) : resp_hello :=
  {| rh_sidr := slice 0 4 p; rh_sidi := slice 4 4 p; rh_ecti := slice 8 768 p;
     rh_scti := slice 776 156 p; rh_auth := slice 932 16 p;
     rh_biscuit := slice 948 116 p |}.

(** msgs.rs:231-240 [InitConf]. *)
Record init_conf := { ic_sidi : bytes; ic_sidr : bytes; ic_biscuit : bytes;
                      ic_auth : bytes }.
Definition ser_ic (m : init_conf) : bytes :=
  ic_sidi m ++ ic_sidr m ++ ic_biscuit m ++ ic_auth m.
Definition parse_ic (p : bytes) : init_conf :=
  {| ic_sidi := slice 0 4 p; ic_sidr := slice 4 4 p; ic_biscuit := slice 8 116 p;
     ic_auth := slice 124 16 p |}.

(** msgs.rs:289-296 [EmptyData]. *)
Record empty_data := { ed_sid : bytes; ed_ctr : bytes; ed_auth : bytes }.
Definition ser_ed (m : empty_data) : bytes := ed_sid m ++ ed_ctr m ++ ed_auth m.
Definition parse_ed (p : bytes) : empty_data :=
  {| ed_sid := slice 0 4 p; ed_ctr := slice 4 8 p; ed_auth := slice 12 16 p |}.

(** msgs.rs:316-323 [Biscuit]. *)
Record biscuit := { bi_pidi : bytes; bi_no : bytes; bi_ck : bytes }.
Definition ser_bi (m : biscuit) : bytes := bi_pidi m ++ bi_no m ++ bi_ck m.
Definition parse_bi (p : bytes) : biscuit :=
  {| bi_pidi := slice 0 32 p; bi_no := slice 32 12 p; bi_ck := slice 44 32 p |}.

(** msgs.rs:341-371 [CookieReplyInner] and [CookieReply], flattened. *)
Record cookie_reply := { cr_type : bytes; cr_reserved : bytes; cr_sid : bytes;
                         cr_cookie : bytes; cr_padding : bytes }.
Definition ser_cr (m : cookie_reply) : bytes :=
  cr_type m ++ cr_reserved m ++ cr_sid m ++ cr_cookie m ++ cr_padding m.
Definition parse_cr (p : bytes) : cookie_reply :=
  {| cr_type := slice 0 1 p; cr_reserved := slice 1 3 p; cr_sid := slice 4 4 p;
     cr_cookie := slice 8 56 p; cr_padding := slice 64 996 p |}.

(** Sizes ([size_of]) of the payloads, with the sizes of keys and ciphertexts in cipher-traits/src/algorithms.rs:84-127
    (Classic McEliece 460896: ciphertext of 156 bytes; Kyber 512: public key of 800, ciphertext of 768); msgs.rs:81-93 [Envelope] adds
    1 + 3 bytes before and 16 + 16 bytes after the payload. *)
Definition IH_LEN : nat := 1024.
Definition RH_LEN : nat := 1064.
Definition IC_LEN : nat := 140.
Definition ED_LEN : nat := 28.
Definition env_len (payload : nat) : nat := payload + 36.
Definition MAX_MESSAGE_LEN : nat := 2500.   (* msgs.rs:29 *)

(** msgs.rs:81-93 field access of an [Envelope] whose payload has [n] bytes. *)
Definition env_payload (n : nat) (m : bytes) : bytes := slice 4 n m.
Definition env_mac (n : nat) (m : bytes) : bytes := slice (4 + n) 16 m.
Definition env_cookie (n : nat) (m : bytes) : bytes := slice (20 + n) 16 m.
(** [span_of!(Envelope<M>, msg_type..mac)]  protocol.rs 3083, 3112 *)
Definition env_upto_mac (n : nat) (m : bytes) : bytes := firstn (4 + n) m.
(** [span_of!(Envelope<M>, msg_type..cookie)]  protocol.rs 3096, 515 *)
Definition env_upto_cookie (n : nat) (m : bytes) : bytes := firstn (20 + n) m.

(** * Facts about slices *)

Lemma slice_0 n l : slice 0 n l = firstn n l.
Proof. reflexivity. Qed.

Lemma slice_skip a b o n : length a <= o ->
  slice o n (a ++ b) = slice (o - length a) n b.
Proof.
  intros L. unfold slice. rewrite skipn_app, skipn_all2 by lia. reflexivity.
Qed.

Lemma slice_take a b n : length a = n -> slice 0 n (a ++ b) = a.
Proof.
  intros <-. unfold slice. cbn [skipn]. rewrite firstn_app, Nat.sub_diag, firstn_all.
  cbn [firstn]. apply app_nil_r.
Qed.

Lemma slice_all a n : length a = n -> slice 0 n a = a.
Proof. intros <-. unfold slice. cbn [skipn]. apply firstn_all. Qed.

Lemma slice_join o n m l : slice o n l ++ slice (o + n) m l = slice o (n + m) l.
Proof.
  unfold slice.
  rewrite <- (firstn_skipn n (firstn (n + m) (skipn o l))).
  rewrite firstn_firstn, Nat.min_l by lia. f_equal.
  rewrite skipn_firstn_comm. replace (n + m - n) with m by lia. f_equal.
  clear m. revert n l; induction o as [|o IH]; intros n l.
  - reflexivity.
  - destruct l; [now rewrite !skipn_nil|]. cbn [skipn plus]. apply IH.
Qed.

(** The field sizes of msgs.rs 131-142 *)
Definition wf_ih (m : init_hello) : Prop :=
  length (ih_sidi m) = 4 /\ length (ih_epki m) = 800 /\ length (ih_sctr m) = 156 /\
  length (ih_pidi_ct m) = 48 /\ length (ih_auth m) = 16.
(** The field sizes of msgs.rs 180-193 *)
Definition wf_rh (m : resp_hello) : Prop :=
  length (rh_sidr m) = 4 /\ length (rh_sidi m) = 4 /\ length (rh_ecti m) = 768 /\
  length (rh_scti m) = 156 /\ length (rh_auth m) = 16 /\ length (rh_biscuit m) = 116.
(** The field sizes of msgs.rs 231-240 *)
Definition wf_ic (m : init_conf) : Prop :=
  length (ic_sidi m) = 4 /\ length (ic_sidr m) = 4 /\ length (ic_biscuit m) = 116 /\
  length (ic_auth m) = 16.
(** The field sizes of msgs.rs 289-296 *)
Definition wf_ed (m : empty_data) : Prop :=
  length (ed_sid m) = 4 /\ length (ed_ctr m) = 8 /\ length (ed_auth m) = 16.
(** The field sizes of msgs.rs 316-323 *)
Definition wf_bi (m : biscuit) : Prop :=
  length (bi_pidi m) = 32 /\ length (bi_no m) = 12 /\ length (bi_ck m) = 32.
(** The field sizes of msgs.rs 341-371 *)
Definition wf_cr (m : cookie_reply) : Prop :=
  length (cr_type m) = 1 /\ length (cr_reserved m) = 3 /\ length (cr_sid m) = 4 /\
  length (cr_cookie m) = 56 /\ length (cr_padding m) = 996.

(** Sizes as literals make [lia] fast; [slice_at] computes offsets. *)
Lemma slice_skip' a b o n k : length a = k -> k <= o ->
  slice o n (a ++ b) = slice (o - k) n b.
Proof. intros <-. apply slice_skip. Qed.

Ltac skip_fields :=
  repeat match goal with
  | H : length ?a = ?k |- context [slice ?o ?n (?a ++ ?b)] =>
      lazymatch o with
      | 0 => rewrite (slice_take a b n) by exact H
      | _ => rewrite (slice_skip' a b o n k H) by (apply Nat.leb_le; reflexivity);
             let o' := eval vm_compute in (o - k) in
             change (o - k) with o'
      end
  | H : length ?a = ?k |- context [slice 0 ?k ?a] => rewrite (slice_all a k H)
  end.

Lemma parse_ser_ih m : wf_ih m -> parse_ih (ser_ih m) = m.
Proof.
  destruct m as [a b c d e]. unfold wf_ih, parse_ih, ser_ih.
  cbn [ih_sidi ih_epki ih_sctr ih_pidi_ct ih_auth]. intros (A & B & C & D & E).
  skip_fields. reflexivity.
Qed.
Lemma parse_ser_rh m : wf_rh m -> parse_rh (ser_rh m) = m.
Proof.
  destruct m as [a b c d e f]. unfold wf_rh, parse_rh, ser_rh.
  cbn [rh_sidr rh_sidi rh_ecti rh_scti rh_auth rh_biscuit]. intros (A & B & C & D & E & F).
  skip_fields. reflexivity.
Qed.
Lemma parse_ser_ic m : wf_ic m -> parse_ic (ser_ic m) = m.
Proof.
  destruct m as [a b c d]. unfold wf_ic, parse_ic, ser_ic.
  cbn [ic_sidi ic_sidr ic_biscuit ic_auth]. intros (A & B & C & D).
  skip_fields. reflexivity.
Qed.
Lemma parse_ser_ed m : wf_ed m -> parse_ed (ser_ed m) = m.
Proof.
  destruct m as [a b c]. unfold wf_ed, parse_ed, ser_ed.
  cbn [ed_sid ed_ctr ed_auth]. intros (A & B & C).
  skip_fields. reflexivity.
Qed.
Lemma parse_ser_bi m : wf_bi m -> parse_bi (ser_bi m) = m.
Proof.
  destruct m as [a b c]. unfold wf_bi, parse_bi, ser_bi.
  cbn [bi_pidi bi_no bi_ck]. intros (A & B & C).
  skip_fields. reflexivity.
Qed.
Lemma parse_ser_cr m : wf_cr m -> parse_cr (ser_cr m) = m.
Proof.
  destruct m as [a b c d e]. unfold wf_cr, parse_cr, ser_cr.
  cbn [cr_type cr_reserved cr_sid cr_cookie cr_padding]. intros (A & B & C & D & E).
  skip_fields. reflexivity.
Qed.

(** Join adjacent slices back together. *)
Ltac join_fields :=
  repeat match goal with
  | |- context [slice ?o ?n ?p ++ slice ?o' ?m ?p] =>
      change (slice o' m p) with (slice (o + n) m p);
      rewrite (slice_join o n m p);
      let k := eval vm_compute in (n + m) in change (n + m) with k
  end.

Lemma ser_parse_ih p : length p = 1024 -> ser_ih (parse_ih p) = p.
Proof.
  intros L. unfold ser_ih, parse_ih. cbn [ih_sidi ih_epki ih_sctr ih_pidi_ct ih_auth].
  join_fields. now apply slice_all.
Qed.
Lemma ser_parse_rh p : length p = 1064 -> ser_rh (parse_rh p) = p.
Proof.
  intros L. unfold ser_rh, parse_rh. cbn [rh_sidr rh_sidi rh_ecti rh_scti rh_auth rh_biscuit].
  join_fields. now apply slice_all.
Qed.
Lemma ser_parse_ic p : length p = 140 -> ser_ic (parse_ic p) = p.
Proof.
  intros L. unfold ser_ic, parse_ic. cbn [ic_sidi ic_sidr ic_biscuit ic_auth].
  join_fields. now apply slice_all.
Qed.
Lemma ser_parse_ed p : length p = 28 -> ser_ed (parse_ed p) = p.
Proof.
  intros L. unfold ser_ed, parse_ed. cbn [ed_sid ed_ctr ed_auth].
  join_fields. now apply slice_all.
Qed.
Lemma ser_parse_bi p : length p = 76 -> ser_bi (parse_bi p) = p.
Proof.
  intros L. unfold ser_bi, parse_bi. cbn [bi_pidi bi_no bi_ck].
  join_fields. now apply slice_all.
Qed.
Lemma ser_parse_cr p : length p = 1060 -> ser_cr (parse_cr p) = p.
Proof.
  intros L. unfold ser_cr, parse_cr. cbn [cr_type cr_reserved cr_sid cr_cookie cr_padding].
  join_fields. now apply slice_all.
Qed.

Lemma wf_parse_ih p : length p = 1024 -> wf_ih (parse_ih p).
Proof. intros L. repeat split; apply slice_length; rewrite L; apply Nat.leb_le; reflexivity. Qed.
Lemma wf_parse_rh p : length p = 1064 -> wf_rh (parse_rh p).
Proof. intros L. repeat split; apply slice_length; rewrite L; apply Nat.leb_le; reflexivity. Qed.
Lemma wf_parse_ic p : length p = 140 -> wf_ic (parse_ic p).
Proof. intros L. repeat split; apply slice_length; rewrite L; apply Nat.leb_le; reflexivity. Qed.
Lemma wf_parse_ed p : length p = 28 -> wf_ed (parse_ed p).
Proof. intros L. repeat split; apply slice_length; rewrite L; apply Nat.leb_le; reflexivity. Qed.
Lemma wf_parse_bi p : length p = 76 -> wf_bi (parse_bi p).
Proof. intros L. repeat split; apply slice_length; rewrite L; apply Nat.leb_le; reflexivity. Qed.
Lemma wf_parse_cr p : length p = 1060 -> wf_cr (parse_cr p).
Proof. intros L. repeat split; apply slice_length; rewrite L; apply Nat.leb_le; reflexivity. Qed.

Lemma ser_ih_len m : wf_ih m -> length (ser_ih m) = 1024.
Proof. intros (A & B & C & D & E). unfold ser_ih. now rewrite !app_length, A, B, C, D, E. Qed.
Lemma ser_rh_len m : wf_rh m -> length (ser_rh m) = 1064.
Proof. intros (A & B & C & D & E & F). unfold ser_rh. now rewrite !app_length, A, B, C, D, E, F. Qed.
Lemma ser_ic_len m : wf_ic m -> length (ser_ic m) = 140.
Proof. intros (A & B & C & D). unfold ser_ic. now rewrite !app_length, A, B, C, D. Qed.
Lemma ser_ed_len m : wf_ed m -> length (ser_ed m) = 28.
Proof. intros (A & B & C). unfold ser_ed. now rewrite !app_length, A, B, C. Qed.
Lemma ser_bi_len m : wf_bi m -> length (ser_bi m) = 76.
Proof. intros (A & B & C). unfold ser_bi. now rewrite !app_length, A, B, C. Qed.
Lemma ser_cr_len m : wf_cr m -> length (ser_cr m) = 1060.
Proof. intros (A & B & C & D & E). unfold ser_cr. now rewrite !app_length, A, B, C, D, E. Qed.

Lemma mt_of_code t : mt_of (mt_code t) = Some t.
Proof. destruct t; reflexivity. Qed.
Lemma mt_code_of b t : mt_of b = Some t -> mt_code t = b.
Proof. destruct b; simpl; intros H; inversion H; reflexivity. Qed.
