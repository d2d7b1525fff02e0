(** Model of the handshake, retransmission and polling code of
    rosenpass/src/protocol/protocol.rs.  Line numbers without file name refer to that
    file.  Test vector hooks and tracing are left out. *)
From Verif Require Import Base ConstTime Prims HashDomains Wire Server.
Local Open Scope m_scope.

Section Proto.
Context (P : prims).

(** * Chaining key operations *)

(** protocol.rs 3156-3162 [HandshakeState::init] *)
Definition ck_init (a : halg) (spkr : bytes) : bytes := hmix P a (d_ckinit P a) spkr.
(** protocol.rs 3166-3173 [HandshakeState::mix] *)
Definition ck_mix (a : halg) (ck x : bytes) : bytes := hmix P a (hmix P a ck (d_mix P a)) x.
(** protocol.rs 3178-3181 the key of [encrypt_and_mix] and [decrypt_and_mix] *)
Definition ck_key (a : halg) (ck : bytes) : bytes := hmix P a ck (d_hs_enc P a).
(** protocol.rs 3177-3185 [encrypt_and_mix]: ciphertext and new chaining key *)
Definition encrypt_and_mix (a : halg) (ck pt : bytes) : bytes * bytes :=
  let ct := aead_enc P (ck_key a ck) (zeros 12) [] pt in
  (ct, ck_mix a ck ct).
(** protocol.rs 3191-3199 [decrypt_and_mix]; the callers pass plaintext buffers of matching size *)
Definition decrypt_and_mix (a : halg) (ck ct : bytes) : option (bytes * bytes) :=
  match aead_dec P (ck_key a ck) (zeros 12) [] ct with
  | Some pt => Some (pt, ck_mix a ck ct)
  | None => None
  end.
(** protocol.rs 3261, 3283 the mixing of [encaps_and_mix] and [decaps_and_mix] *)
Definition kem_mix (a : halg) (ck pk shk ct : bytes) : bytes :=
  ck_mix a (ck_mix a (ck_mix a ck pk) shk) ct.

(** * Envelopes *)

(** protocol.rs 3081-3084 the mac of [Envelope::seal]; [data] is [msg_type..mac]. *)
Definition mac_of (a : halg) (pk data : bytes) : bytes :=
  firstn 16 (hmix P a (hmix P a (d_mac P a) pk) data).
(** protocol.rs 3094-3098 the cookie of [seal_cookie]; [data] is [msg_type..cookie]. *)
Definition cookie_of (value data : bytes) : bytes :=
  firstn 16 (hmix P Shake (hmix P Shake (d_cookie P Shake) value) data).

(** protocol.rs 3092-3101 [seal_cookie] on a whole envelope with payload size [n]. *)
Definition seal_cookie (x : peer) (n : nat) (m : bytes) : bytes :=
  match p_handshake x with
  | Some h =>
      env_upto_cookie n m ++ cookie_of (cs_value (hs_cookie h)) (env_upto_cookie n m)
  | None => m
  end.
(** protocol.rs 3080-3087 [seal] *)
Definition seal (x : peer) (n : nat) (m : bytes) : bytes :=
  seal_cookie x n
    (env_upto_mac n m ++ mac_of (p_alg x) (p_spkt x) (env_upto_mac n m) ++ env_cookie n m).
(** protocol.rs 3109-3117 [check_seal] *)
Definition check_seal (s : srv) (a : halg) (n : nat) (m : bytes) : bool :=
  memcmp (env_mac n m) (mac_of a (s_spkm s) (env_upto_mac n m)).
(** protocol.rs 2354-2364 [seal_and_commit_msg]: [tx] is the transmit buffer the envelope lives in; its
    old contents show in the reserved and (without handshake) in the cookie field. *)
Definition commit_msg (x : peer) (t : msg_type) (n : nat) (payload tx : bytes) : bytes :=
  seal x n (mt_code t :: slice 1 3 tx ++ payload ++ env_mac n tx ++ env_cookie n tx).

(** * Retransmission *)

(** protocol.rs 3038-3046 delay before the next retransmission: 0.5 s * 2^min(log2 20, count)
    * 0.5 * (r + 1) with r = jitter / 2^53. *)
Definition retransmit_base (count : N) : Z :=
  if (count <=? 4)%N then RETRANSMIT_DELAY_BEGIN * 2 ^ Z.of_N count
  else RETRANSMIT_DELAY_END.
Definition retransmit_delay (count : N) (jitter : Z) : Z :=
  (retransmit_base count * (2 ^ 53 + jitter)) / 2 ^ 54.

(** protocol.rs 368-408: assignments to [tx_retry_at], [tx_count], [tx_len], [tx_buf] and other fields of [InitiatorHandshake] *)
Definition set_retry (t : time) (count : N) (h : ihs) : ihs :=
  {| hs_created := hs_created h; hs_next := hs_next h; hs_cor := hs_cor h;
     hs_eski := hs_eski h; hs_epki := hs_epki h; hs_retry_at := t; hs_tx_count := count;
     hs_tx_len := hs_tx_len h; hs_tx_buf := hs_tx_buf h; hs_cookie := hs_cookie h |}.
Definition set_tx (len : nat) (buf : bytes) (count : N) (h : ihs) : ihs :=
  {| hs_created := hs_created h; hs_next := hs_next h; hs_cor := hs_cor h;
     hs_eski := hs_eski h; hs_epki := hs_epki h; hs_retry_at := hs_retry_at h;
     hs_tx_count := count; hs_tx_len := len; hs_tx_buf := buf; hs_cookie := hs_cookie h |}.
Definition set_core (next : hsm) (c : hs_core) (h : ihs) : ihs :=
  {| hs_created := hs_created h; hs_next := next; hs_cor := c;
     hs_eski := hs_eski h; hs_epki := hs_epki h; hs_retry_at := hs_retry_at h;
     hs_tx_count := hs_tx_count h; hs_tx_len := hs_tx_len h; hs_tx_buf := hs_tx_buf h;
     hs_cookie := hs_cookie h |}.
Definition set_hs_cookie (c : cookie_store) (h : ihs) : ihs :=
  {| hs_created := hs_created h; hs_next := hs_next h; hs_cor := hs_cor h;
     hs_eski := hs_eski h; hs_epki := hs_epki h; hs_retry_at := hs_retry_at h;
     hs_tx_count := hs_tx_count h; hs_tx_len := hs_tx_len h; hs_tx_buf := hs_tx_buf h;
     hs_cookie := c |}.

(** [get_mut(srv).as_mut().with_context(..)?]  as in protocol.rs 3033-3036 *)
Definition get_hs (p : nat) : M ihs :=
  x <- get_peer p ;; need ENoHandshake (p_handshake x).
(** protocol.rs 808-810: writing through [get_mut] *)
Definition put_hs (p : nat) (h : ihs) : M unit := upd_peer p (set_handshake (Some h)).

(** protocol.rs 3031-3049 [register_retransmission] *)
Definition register_retransmission (now : time) (c : coins) (p : nat) : M unit :=
  h <- get_hs p ;;
  put_hs p (set_retry (now + retransmit_delay (hs_tx_count h) (c_jitter c))
                      (hs_tx_count h + 1) h).
(** protocol.rs 3053-3062 [register_immediate_retransmission] *)
Definition register_immediate_retransmission (now : time) (p : nat) : M unit :=
  h <- get_hs p ;;
  put_hs p (set_retry now (hs_tx_count h + 1) h).

(** util/src/mem.rs:79-84 [cpy_min] *)
Definition cpy_min (src dst : bytes) : bytes :=
  let n := Nat.min (length src) (length dst) in
  firstn n src ++ skipn n dst.

(** protocol.rs 2991-3001 [store_msg_for_retransmission] *)
Definition store_msg (now : time) (c : coins) (p : nat) (msg : bytes) : M unit :=
  h <- get_hs p ;;
  put_hs p (set_tx (length msg) (cpy_min msg (hs_tx_buf h)) 0 h) ;;;
  register_retransmission now c p.

(** protocol.rs 3011-3028 [apply_retransmission]; returns the message, the first [tx_len] bytes of
    the transmit buffer.  The cookie is always written at the InitHello position. *)
Definition apply_retransmission (p : nat) (tx : bytes) : M bytes :=
  h <- get_hs p ;;
  if Nat.ltb (length (hs_tx_buf h)) (hs_tx_len h) then panic else
  let tx1 := cpy_min (firstn (hs_tx_len h) (hs_tx_buf h)) tx in
  if Nat.ltb (length tx1) (env_len IH_LEN) then panic else
  x <- get_peer p ;;
  let tx2 := seal_cookie x IH_LEN (firstn (env_len IH_LEN) tx1)
             ++ skipn (env_len IH_LEN) tx1 in
  ret (firstn (hs_tx_len h) tx2).

(** protocol.rs 2977-2979 [retransmit_handshake] *)
Definition retransmit_handshake (p : nat) (tx : bytes) : M bytes := apply_retransmission p tx.

(** * Biscuits *)

(** protocol.rs 3335-3339, 3374-3378 additional data *)
Definition biscuit_ad (a : halg) (spkm sidi sidr : bytes) : bytes :=
  hmix P a (hmix P a (hmix P a (d_biscuit_ad P a) spkm) sidi) sidr.

(** protocol.rs 3351-3352 the top bit of the first nonce byte names the key slot *)
Definition tag_nonce (slot : bool) (n : bytes) : bytes :=
  match n with
  | [] => []
  | b :: n' =>
      n2b (N.lor (N.land (b2n b) 127) (if slot then 128 else 0)) :: n'
  end.
(** protocol.rs 3371 *)
Definition nonce_slot (ct : bytes) : bool :=
  match ct with
  | [] => false
  | b :: _ => N.testbit (b2n b) 7
  end.

(** protocol.rs 3312-3360 [store_biscuit]: biscuit ciphertext and new chaining key *)
Definition store_biscuit (now : time) (c : coins) (p : nat) (core : hs_core)
  : M (bytes * bytes) :=
  x <- get_peer p ;;
  s <- get ;;
  let pt := ser_bi {| bi_pidi := pidt P x; bi_no := s_bctr s; bi_ck := hc_ck core |} in
  let ad := biscuit_ad (p_alg x) (s_spkm s) (hc_sidi core) (hc_sidr core) in
  modify (fun s => set_bctr (increment (s_bctr s)) s) ;;;
  slot <- active_biscuit_key now c ;;
  s <- get ;;
  let ct := xenc P (cs_value (get_bk slot s)) (tag_nonce slot (c_bnonce c)) ad pt in
  ret (ct, ck_mix (hc_alg core) (hc_ck core) ct).

(** protocol.rs 3363-3409 [load_biscuit].  [biscuit_ct[0]] cannot be out of bounds for the
    fixed-size field. *)
Definition load_biscuit (ct sidi sidr : bytes) (a : halg) : M (nat * bytes * hs_core) :=
  s <- get ;;
  let ad := biscuit_ad a (s_spkm s) sidi sidr in
  pt <- need EDecrypt (xdec P (cs_value (get_bk (nonce_slot ct) s)) ad ct) ;;
  let b := parse_bi pt in
  p <- need ENoSuchPeer (find_peer s (bi_pidi b)) ;;
  x <- get_peer p ;;
  ret (p, bi_no b,
       {| hc_sidi := sidi; hc_sidr := sidr;
          hc_ck := ck_mix (p_alg x) (bi_ck b) ct; hc_alg := p_alg x |}).

(** protocol.rs 3416-3446 [enter_live] *)
Definition enter_live (now : time) (core : hs_core) (r : role) (a : halg) : session :=
  let tki := hmix P (hc_alg core) (hc_ck core) (d_ini_enc P a) in
  let tkr := hmix P (hc_alg core) (hc_ck core) (d_res_enc P a) in
  match r with
  | Initiator =>
      {| se_created := now; se_sidm := hc_sidi core; se_sidt := hc_sidr core; se_role := r;
         se_ck := hc_ck core; se_alg := hc_alg core; se_txkm := tki; se_txkt := tkr;
         se_txnm := 0; se_txnt := 0 |}
  | Responder =>
      {| se_created := now; se_sidm := hc_sidr core; se_sidt := hc_sidi core; se_role := r;
         se_ck := hc_ck core; se_alg := hc_alg core; se_txkm := tkr; se_txkt := tki;
         se_txnm := 0; se_txnt := 0 |}
  end.

(** * Output keys *)

(** protocol.rs 3453-3478 [osk_with_domain_separator] *)
Definition osk_with_domain_separator (p : nat) (ds : osk_ds) : M bytes :=
  x <- get_peer p ;;
  ses <- need ENoSession (p_session x) ;;
  ret (hmix P (se_alg ses) (se_ck ses) (ds_compress P (p_alg x) ds)).
(** protocol.rs 3498-3505 [osk] *)
Definition osk (p : nat) : M bytes :=
  x <- get_peer p ;; osk_with_domain_separator p (p_ds x).

(** * Initiator *)

(** The computation of protocol.rs 3549-3637 (IHI1 to IHI8): payload and final chaining key. *)
Definition ih_compute (s : srv) (x : peer) (c : coins) : init_hello * bytes :=
  let a := p_alg x in
  let epk := snd (ekem_gen P (c_kp c)) in
  let ck := ck_init a (p_spkt x) in
  let ck := ck_mix a ck (c_sid c) in
  let ck := ck_mix a ck epk in
  let '(shk, sctr) := skem_enc P (c_enc1 c) (p_spkt x) in
  let ck := kem_mix a ck (p_spkt x) shk sctr in
  let '(pidi_ct, ck) := encrypt_and_mix a ck (peer_id P a (s_spkm s)) in
  let ck := ck_mix a ck (s_spkm s) in
  let ck := ck_mix a ck (p_psk x) in
  let '(auth, ck) := encrypt_and_mix a ck [] in
  ({| ih_sidi := c_sid c; ih_epki := epk; ih_sctr := sctr; ih_pidi_ct := pidi_ct;
      ih_auth := auth |}, ck).

(** protocol.rs 3539-3642 [handle_initiation] *)
Definition handle_initiation (now : time) (c : coins) (p : nat) : M init_hello :=
  x <- get_peer p ;;
  s <- get ;;
  let '(ih, ck) := ih_compute s x c in
  hs_insert p
    {| hs_created := now; hs_next := ExpRespHello;
       hs_cor := {| hc_sidi := c_sid c; hc_sidr := zeros 4; hc_ck := ck;
                    hc_alg := p_alg x |};
       hs_eski := fst (ekem_gen P (c_kp c)); hs_epki := snd (ekem_gen P (c_kp c));
       hs_retry_at := 0; hs_tx_count := 0; hs_tx_len := 0;
       hs_tx_buf := zeros MAX_MESSAGE_LEN;
       hs_cookie := new_store (c_cookie c) |} ;;;
  ret ih.

(** protocol.rs 1905-1921 [initiate_handshake]; returns the message. *)
Definition initiate_handshake (now : time) (c : coins) (p : nat) (tx : bytes) : M bytes :=
  if Nat.ltb (length tx) (env_len IH_LEN) then panic else
  ih <- handle_initiation now c p ;;
  x <- get_peer p ;;
  let msg := commit_msg x MInitHello IH_LEN (ser_ih ih) tx in
  store_msg now c p msg ;;;
  ret msg.

(** * Responder: InitHello *)

(** protocol.rs 3676-3732 (IHR1 to IHR8): peer and chaining key *)
Definition handle_ih_dec (s : srv) (ih : init_hello) (a : halg) : option (bytes * bytes) :=
  let ck := ck_init a (s_spkm s) in
  let ck := ck_mix a ck (ih_sidi ih) in
  let ck := ck_mix a ck (ih_epki ih) in
  let shk := skem_dec P (s_sskm s) (ih_sctr ih) in
  let ck := kem_mix a ck (s_spkm s) shk (ih_sctr ih) in
  decrypt_and_mix a ck (ih_pidi_ct ih).

(** protocol.rs 3665-3799 [handle_init_hello] *)
Definition handle_init_hello (now : time) (c : coins) (ih : init_hello) (a : halg)
  : M (nat * resp_hello) :=
  s <- get ;;
  '(peerid, ck) <- need EDecrypt (handle_ih_dec s ih a) ;;
  p <- need ENoSuchPeer (find_peer s peerid) ;;
  x <- get_peer p ;;
  let ck := ck_mix a ck (p_spkt x) in
  let ck := ck_mix a ck (p_psk x) in
  '(_, ck) <- need EDecrypt (decrypt_and_mix a ck (ih_auth ih)) ;;
  let sidr := c_sid c in
  let sidi := ih_sidi ih in
  let ck := ck_mix a ck sidr in
  let ck := ck_mix a ck sidi in
  let '(shk, ecti) := ekem_enc P (c_enc1 c) (ih_epki ih) in
  let ck := kem_mix a ck (ih_epki ih) shk ecti in
  let '(shk, scti) := skem_enc P (c_enc2 c) (p_spkt x) in
  let ck := kem_mix a ck (p_spkt x) shk scti in
  '(bct, ck) <- store_biscuit now c p
                  {| hc_sidi := sidi; hc_sidr := sidr; hc_ck := ck; hc_alg := a |} ;;
  let '(auth, ck) := encrypt_and_mix a ck [] in
  ret (p, {| rh_sidr := sidr; rh_sidi := sidi; rh_ecti := ecti; rh_scti := scti;
             rh_auth := auth; rh_biscuit := bct |}).

(** * Initiator: RespHello *)

(** protocol.rs 3843-3894 (RHI3 to ICI4): InitConf payload and final handshake state *)
Definition handle_rh_compute (s : srv) (h : ihs) (rh : resp_hello)
  : option (init_conf * hs_core) :=
  let a := hc_alg (hs_cor h) in
  let ck := hc_ck (hs_cor h) in
  let ck := ck_mix a ck (rh_sidr rh) in
  let ck := ck_mix a ck (rh_sidi rh) in
  let ck := kem_mix a ck (hs_epki h) (ekem_dec P (hs_eski h) (rh_ecti rh)) (rh_ecti rh) in
  let ck := kem_mix a ck (s_spkm s) (skem_dec P (s_sskm s) (rh_scti rh)) (rh_scti rh) in
  let ck := ck_mix a ck (rh_biscuit rh) in
  match decrypt_and_mix a ck (rh_auth rh) with
  | None => None
  | Some (_, ck) =>
      let ck := ck_mix a ck (rh_sidi rh) in
      let ck := ck_mix a ck (rh_sidr rh) in
      let '(auth, ck) := encrypt_and_mix a ck [] in
      Some ({| ic_sidi := rh_sidi rh; ic_sidr := rh_sidr rh; ic_biscuit := rh_biscuit rh;
               ic_auth := auth |},
            {| hc_sidi := hc_sidi (hs_cor h); hc_sidr := rh_sidr rh; hc_ck := ck;
               hc_alg := a |})
  end.

(** protocol.rs 3803-3915 [handle_resp_hello] *)
Definition handle_resp_hello (now : time) (rh : resp_hello) : M (nat * init_conf) :=
  o <- lookup_handshake (rh_sidi rh) ;;
  p <- need ENoHandshake o ;;
  x <- get_peer p ;;
  h <- unwrap (p_handshake x) ;;
  match hs_next h with
  | ExpRespConf => fail EUnexpected
  | ExpRespHello =>
      s <- get ;;
      '(ic, core) <- need EDecrypt (handle_rh_compute s h rh) ;;
      ses_insert p (enter_live now core Initiator (p_alg x)) ;;;
      x <- get_peer p ;;
      h <- unwrap (p_handshake x) ;;
      (* 3150-3152 [erase] clears the chaining key *)
      put_hs p (set_core ExpRespConf
                  {| hc_sidi := hc_sidi (hs_cor h); hc_sidr := hc_sidr (hs_cor h);
                     hc_ck := zeros 32; hc_alg := hc_alg (hs_cor h) |} h) ;;;
      ret (p, ic)
  end.

(** * Responder: InitConf *)

(** protocol.rs 562-564: assignments to [Session::txnm] and [txnt] *)
Definition set_txnm (n : N) (x : session) : session :=
  {| se_created := se_created x; se_sidm := se_sidm x; se_sidt := se_sidt x;
     se_role := se_role x; se_ck := se_ck x; se_alg := se_alg x; se_txkm := se_txkm x;
     se_txkt := se_txkt x; se_txnm := n; se_txnt := se_txnt x |}.
Definition set_txnt (n : N) (x : session) : session :=
  {| se_created := se_created x; se_sidm := se_sidm x; se_sidt := se_sidt x;
     se_role := se_role x; se_ck := se_ck x; se_alg := se_alg x; se_txkm := se_txkm x;
     se_txkt := se_txkt x; se_txnm := se_txnm x; se_txnt := n |}.

(** protocol.rs 3943-3956 (ICR2 to ICR4): the final chaining key of the responder *)
Definition handle_ic_ck (core : hs_core) (ic : init_conf) : option bytes :=
  let a := hc_alg core in
  let '(_, ck) := encrypt_and_mix a (hc_ck core) [] in
  let ck := ck_mix a ck (ic_sidi ic) in
  let ck := ck_mix a ck (ic_sidr ic) in
  match decrypt_and_mix a ck (ic_auth ic) with
  | Some (_, ck) => Some ck
  | None => None
  end.

(** protocol.rs 3922-4024 [handle_init_conf].  [txnm += 1] is modelled without the u64 limit. *)
Definition handle_init_conf (now : time) (ic : init_conf) (a : halg) : M (nat * empty_data) :=
  '(p, bno, core) <- load_biscuit (ic_biscuit ic) (ic_sidi ic) (ic_sidr ic) a ;;
  ck <- need EDecrypt (handle_ic_ck core ic) ;;
  let core := {| hc_sidi := hc_sidi core; hc_sidr := hc_sidr core; hc_ck := ck;
                 hc_alg := hc_alg core |} in
  x <- get_peer p ;;
  z <- unwrap (compare bno (p_biscuit_used x)) ;;
  ensure (z >? 0)%Z EOutdatedBiscuit ;;;
  upd_peer p (set_biscuit_used bno) ;;;
  ses_insert p (enter_live now core Responder (p_alg x)) ;;;
  hs_take p ;;;
  x <- get_peer p ;;
  ses <- need ENoSession (p_session x) ;;
  put_peer p (set_session (Some (set_txnm (se_txnm ses + 1) ses)) x) ;;;
  let ctr := le_enc 8 (se_txnm ses) in
  ret (p, {| ed_sid := se_sidt ses; ed_ctr := ctr;
             ed_auth := aead_enc P (se_txkm ses) (ctr ++ zeros 4) [] [] |}).

(** * Initiator: EmptyData *)

(** protocol.rs 4030-4083 [handle_resp_conf] on the whole envelope *)
Definition handle_resp_conf (m : bytes) : M nat :=
  let rc := parse_ed (env_payload ED_LEN m) in
  o <- lookup_handshake (ed_sid rc) ;;
  p <- need ENoHandshake o ;;
  x <- get_peer p ;;
  s <- get ;;
  ensure (check_seal s (p_alg x) ED_LEN m) ESeal ;;;
  ensure (match p_handshake x with
          | Some h => match hs_next h with ExpRespConf => true | _ => false end
          | None => false end) EUnexpected ;;;
  ses <- need ENoSession (p_session x) ;;
  let n := le_dec (ed_ctr rc) in
  ensure (se_txnt ses <=? n)%N EStaleNonce ;;;
  put_peer p (set_session (Some (set_txnt n ses)) x) ;;;
  need EDecrypt (aead_dec P (se_txkt ses) (ed_ctr rc ++ zeros 4) [] (ed_auth rc)) ;;;
  hs_take p ;;;
  ret p.

(** * Initiator: CookieReply *)

(** protocol.rs 4106-4129 mac of the last transmitted message *)
Definition last_mac (h : ihs) : option bytes :=
  match hs_tx_buf h with
  | [] => None
  | b :: _ =>
      match mt_of b with
      | Some MInitHello => Some (env_mac IH_LEN (hs_tx_buf h))
      | Some MInitConf => Some (env_mac IC_LEN (hs_tx_buf h))
      | _ => None
      end
  end.

(** ciphers/src/subtle/rust_crypto/xchacha20poly1305_ietf.rs:49-76 decryption in place: the
    buffer holds the raw ciphertext when the tag check fails. *)
Definition dec_in_place (k ad ct : bytes) : bytes * bool :=
  match xdec P k ad ct with
  | Some pt => (pt, true)
  | None => (slice 24 16 ct, false)
  end.

(** protocol.rs 4090-4157 [handle_cookie_reply]  protocol.rs 978-992 [update_mut] is the [put_hs] *)
Definition handle_cookie_reply (now : time) (cr : cookie_reply) : M nat :=
  o <- lookup_session (cr_sid cr) ;;
  o <- match o with
       | Some p => ret (Some p)
       | None => lookup_handshake (cr_sid cr)
       end ;;
  p <- need ENoSuchPeer o ;;
  x <- get_peer p ;;
  h <- need ENoLastMsg (p_handshake x) ;;
  mac <- need ENoLastMsg (last_mac h) ;;
  let key := hmix P Shake (d_cookie_key P Shake) (p_spkt x) in
  let '(v, good) := dec_in_place key mac (cr_cookie cr) in
  put_hs p (set_hs_cookie {| cs_created := now; cs_value := v |} h) ;;;
  ensure good EDecrypt ;;;
  register_immediate_retransmission now p ;;;
  ret p.

(** * Message dispatch *)

(** protocol.rs 1926-1940 [HandleMsgResult]; the response is returned as bytes instead of a
    length in the transmit buffer. *)
Record msg_result := { mr_exchanged : option nat; mr_resp : option bytes }.

(** protocol.rs 511-523 [KnownResponseHasher::hash] of an InitConf envelope  protocol.rs 1148-1160 [index_key_hash_for_msg], [index_key_for_msg] *)
Definition known_hash (s : srv) (m : bytes) : bytes :=
  firstn 16 (khash P Shake (s_khkey s) (env_upto_cookie IC_LEN m)).

(** protocol.rs 2330-2341 [verify_hash_choice_match] *)
Definition verify_hash_choice (p : nat) (a : halg) : M unit :=
  x <- get_peer p ;; ensure (halg_eqb (p_alg x) a) EHashMismatch.

(** Run [m]; on [Err] continue with [h] from the state [m] left behind.  protocol.rs 2194-2212. *)
Definition or_else {A} (m h : M A) : M A := fun s =>
  match m s with
  | (s', Err _) => h s'
  | r => r
  end.

(** protocol.rs 2194-2212, 2268-2286: try SHAKE256 first, then BLAKE2b *)
Definition try_hashes {A} (f : halg -> M A) : M (A * halg) :=
  or_else (r <- f Shake ;; ret (r, Shake))
          (or_else (r <- f Blake ;; ret (r, Blake)) (fail ENoValidHash)).

(** protocol.rs 2188-2221 *)
Definition msg_init_hello (now : time) (c : coins) (rx tx : bytes) : M msg_result :=
  ensure (Nat.eqb (length rx) (env_len IH_LEN)) EBufferSize ;;;
  let ih := parse_ih (env_payload IH_LEN rx) in
  '((p, rh), a) <- try_hashes (handle_init_hello now c ih) ;;
  verify_hash_choice p a ;;;
  s <- get ;;
  ensure (check_seal s a IH_LEN rx) ESeal ;;;
  x <- get_peer p ;;
  ret {| mr_exchanged := None;
         mr_resp := Some (commit_msg x MRespHello RH_LEN (ser_rh rh) tx) |}.

(** protocol.rs 2222-2238 *)
Definition msg_resp_hello (now : time) (c : coins) (rx tx : bytes) : M msg_result :=
  ensure (Nat.eqb (length rx) (env_len RH_LEN)) EBufferSize ;;;
  '(p, ic) <- handle_resp_hello now (parse_rh (env_payload RH_LEN rx)) ;;
  x <- get_peer p ;;
  s <- get ;;
  ensure (check_seal s (p_alg x) RH_LEN rx) ESeal ;;;
  let msg := commit_msg x MInitConf IC_LEN (ser_ic ic) tx in
  store_msg now c p msg ;;;
  ret {| mr_exchanged := Some p; mr_resp := Some msg |}.

(** protocol.rs 2239-2306.  [kr_response] is the whole EmptyData envelope before sealing, so it has
    the old contents of the transmit buffer outside the payload.  protocol.rs 1092-1116 [lookup_for_request_msg], [lookup_response_for_request_msg], 1128-1143 [insert_for_request_msg] *)
Definition msg_init_conf (now : time) (rx tx : bytes) : M msg_result :=
  ensure (Nat.eqb (length rx) (env_len IC_LEN)) EBufferSize ;;;
  s <- get ;;
  match idx_get (KKnown (known_hash s rx)) (s_index s) with
  | Some p =>
      x <- get_peer p ;;
      ensure (check_seal s (p_alg x) IC_LEN rx) ESeal ;;;
      k <- unwrap (p_known x) ;;
      ret {| mr_exchanged := None;
             mr_resp := Some (commit_msg x MEmptyData ED_LEN
                                (env_payload ED_LEN (kr_response k)) (kr_response k)) |}
  | None =>
      '((p, rc), a) <- try_hashes
                         (handle_init_conf now (parse_ic (env_payload IC_LEN rx))) ;;
      verify_hash_choice p a ;;;
      s <- get ;;
      ensure (check_seal s a IC_LEN rx) ESeal ;;;
      known_insert p
        {| kr_received := now; kr_mac := known_hash s rx;
           kr_response := firstn 4 tx ++ ser_ed rc ++ slice (4 + ED_LEN) 32 tx |} ;;;
      x <- get_peer p ;;
      ret {| mr_exchanged := Some p;
             mr_resp := Some (commit_msg x MEmptyData ED_LEN (ser_ed rc) tx) |}
  end.

(** protocol.rs 2307-2312 *)
Definition msg_empty_data (rx : bytes) : M msg_result :=
  ensure (Nat.eqb (length rx) (env_len ED_LEN)) EBufferSize ;;;
  handle_resp_conf rx ;;;
  ret {| mr_exchanged := None; mr_resp := None |}.

(** protocol.rs 2313-2319; [size_of::<CookieReply>()] is 1060 *)
Definition msg_cookie_reply (now : time) (rx : bytes) : M msg_result :=
  ensure (Nat.eqb (length rx) (env_len IH_LEN)) EBufferSize ;;;
  handle_cookie_reply now (parse_cr rx) ;;;
  ret {| mr_exchanged := None; mr_resp := None |}.

(** protocol.rs 2169-2326 [handle_msg] *)
Definition handle_msg (now : time) (c : coins) (rx tx : bytes) : M msg_result :=
  match rx with
  | [] => fail EEmpty
  | b :: _ =>
      match mt_of b with
      | None => fail EBadType
      | Some t =>
          if Nat.ltb (length tx) (env_len RH_LEN) then panic else
          match t with
          | MInitHello => msg_init_hello now c rx tx
          | MRespHello => msg_resp_hello now c rx tx
          | MInitConf => msg_init_conf now rx tx
          | MEmptyData => msg_empty_data rx
          | MCookieReply => msg_cookie_reply now rx
          end
      end
  end.

(** * Under load (feature experiment_cookie_dos_mitigation) *)

(** protocol.rs 2030-2036 cookie value for a sender *)
Definition cookie_value_for (secret host : bytes) : bytes :=
  firstn 16 (hmix P Shake (hmix P Shake (d_cookie_value P Shake) secret) host).

(** protocol.rs 2027-2071 the loop over the secrets; inside it the size of the message is checked. *)
Fixpoint cookie_valid (s : srv) (host rx : bytes) (l : list bool) : bool :=
  match l with
  | [] => false
  | i :: l' =>
      memcmp (env_cookie IH_LEN rx)
             (cookie_of (cookie_value_for (cs_value (get_cs i s)) host)
                        (env_upto_cookie IH_LEN rx))
      || cookie_valid s host rx l'
  end.

(** protocol.rs 1994-2118 [handle_msg_under_load].  The buffer for the reply is checked last. *)
Definition handle_msg_under_load (now : time) (c : coins) (rx tx host : bytes)
  : M msg_result :=
  match rx with
  | [] => fail EEmpty
  | b :: _ =>
      match mt_of b with
      | Some MInitConf => handle_msg now c rx tx
      | Some MInitHello =>
          l <- active_or_retired_cookie_secrets now c ;;
          s <- get ;;
          ensure (Nat.eqb (length rx) (env_len IH_LEN)) EBufferSize ;;;
          if cookie_valid s host rx l then handle_msg now c rx tx else
          i <- need ENoCookie (hd_error l) ;;
          if Nat.ltb (length tx) (env_len IH_LEN) then panic else
          let v := cookie_value_for (cs_value (get_cs i s)) host in
          let key := hmix P Shake (d_cookie_key P Shake) (s_spkm s) in
          let reply := {| cr_type := [mt_code MCookieReply];
                          cr_reserved := slice 1 3 tx;
                          cr_sid := ih_sidi (parse_ih (env_payload IH_LEN rx));
                          cr_cookie := xenc P key (c_xnonce c) (env_mac IH_LEN rx) v;
                          cr_padding := c_pad c |} in
          ret {| mr_exchanged := None; mr_resp := Some (ser_cr reply) |}
      | _ => fail EUnderLoad
      end
  end.

(** * Polling *)

(** protocol.rs 2493-2516 [PollResult] *)
Inductive poll_result :=
| Sleep (t : time)
| DeleteKey (p : nat)
| SendInitiation (p : nat)
| SendRetransmission (p : nat).

(** protocol.rs 2791-2794 *)
Definition saturated (r : poll_result) : bool :=
  match r with Sleep _ => false | _ => true end.
(** protocol.rs 2599-2612 [fold]; [None] is the panic *)
Definition pfold (a b : poll_result) : option poll_result :=
  match a, b with
  | Sleep x, Sleep y => Some (Sleep (Z.min x y))
  | a, Sleep _ => Some a
  | Sleep _, b => Some b
  | _, _ => None
  end.
Definition foldM (a b : poll_result) : M poll_result := unwrap (pfold a b).

(** protocol.rs 2705-2714, 2743-2756 [sched], [try_sched] *)
Definition sched (acc : poll_result) (wait : time) (f : M poll_result) : M poll_result :=
  if saturated acc then ret acc
  else if has_happened wait 0 then r <- f ;; foldM acc r
  else foldM acc (Sleep wait).
(** protocol.rs 2634-2650 [try_fold_with], [poll_child] *)
Definition poll_child (acc : poll_result) (f : M poll_result) : M poll_result :=
  if saturated acc then ret acc else r <- f ;; foldM acc r.
(** protocol.rs 2658-2671 [poll_children] *)
Fixpoint poll_children (acc : poll_result) (l : list (M poll_result)) : M poll_result :=
  match l with
  | [] => ret acc
  | f :: l' =>
      if saturated acc then ret acc
      else r <- f ;; acc <- foldM acc r ;; poll_children acc l'
  end.

(** protocol.rs 2432-2454 *)
Definition or_hibernate (t : option time) : time :=
  match t with Some u => u | None => UNENDING end.
Definition or_immediate (t : option time) : time :=
  match t with Some u => u | None => 0%Z end.
(** protocol.rs 2414-2420 *)
Definition immediate_unless (b : bool) : time := if b then UNENDING else 0%Z.
(** protocol.rs 2466-2469 *)
Definition wait_and (a b : time) : time := if (a >? b)%Z then a else b.
(** protocol.rs 2806-2808, 2518-2523 *)
Definition begin_poll : poll_result := Sleep UNENDING.

(** protocol.rs 2900-2906; [erase] is 1571-1574 *)
Definition poll_bk (now : time) (c : coins) (i : bool) : M poll_result :=
  s <- get ;;
  sched begin_poll (or_hibernate (left now (bk_die_at (get_bk i s))))
    (modify (set_bk i (new_store (c_erase c (if i then 1 else 0)))) ;;; ret begin_poll).
(** protocol.rs 2908-2914 *)
Definition poll_sec (now : time) (c : coins) (i : bool) : M poll_result :=
  s <- get ;;
  sched begin_poll (or_hibernate (left now (sec_die_at (get_cs i s))))
    (modify (set_cs i (new_store (c_erase c (if i then 3 else 2)))) ;;; ret begin_poll).

(** protocol.rs 2945-2954 *)
Definition poll_hs (now : time) (c : coins) (p : nat) : M poll_result :=
  x <- get_peer p ;;
  sched begin_poll
    (or_hibernate (left now (option_map hs_retry_at (p_handshake x))))
    (register_retransmission now c p ;;; ret (SendRetransmission p)).
(** protocol.rs 2956-2963 *)
Definition poll_known (now : time) (p : nat) : M poll_result :=
  x <- get_peer p ;;
  sched begin_poll (or_hibernate (left now (known_die_at (p_known x))))
    (known_remove p ;;; ret begin_poll).

(** protocol.rs 2916-2943 *)
Definition poll_peer (now : time) (c : coins) (p : nat) : M poll_result :=
  x <- get_peer p ;;
  acc <- sched begin_poll (or_hibernate (left now (hs_die_at (p_handshake x))))
           (hs_take p ;;; ret begin_poll) ;;
  x <- get_peer p ;;
  acc <- sched acc (or_hibernate (left now (ses_die_at (p_session x))))
           (ses_take p ;;; ret (DeleteKey p)) ;;
  x <- get_peer p ;;
  acc <- sched acc
           (wait_and (wait_and (immediate_unless (p_init_req x))
                               (or_immediate (left now (ses_retire_at (p_session x)))))
                     (or_immediate (left now (hs_retire_at (p_handshake x)))))
           (upd_peer p (set_init_req true) ;;; ret (SendInitiation p)) ;;
  acc <- poll_child acc (poll_hs now c p) ;;
  poll_child acc (poll_known now p).

(** protocol.rs 1227-1230 [peer_ptrs_off] *)
Definition peer_ptrs_off (l n : nat) : list nat :=
  map (fun i => (i + n) mod l) (seq 0 l).

(** protocol.rs 2556-2562 [PollResult::peer] *)
Definition result_peer (r : poll_result) : option nat :=
  match r with
  | Sleep _ => None
  | DeleteKey p | SendInitiation p | SendRetransmission p => Some p
  end.

(** protocol.rs 2887-2897 [poll] *)
Definition poll (now : time) (c : coins) : M poll_result :=
  acc <- poll_children begin_poll [poll_bk now c false; poll_bk now c true] ;;
  acc <- poll_children acc [poll_sec now c false; poll_sec now c true] ;;
  s <- get ;;
  r <- poll_children acc
         (map (poll_peer now c) (peer_ptrs_off (length (s_peers s)) (s_poll_off s))) ;;
  modify (set_poll_off (match result_peer r with Some p => S p | None => 0 end)) ;;;
  ret r.

End Proto.
