(** Model of the state of rosenpass/src/protocol/protocol.rs [CryptoServer] and of the
    functions that keep its tables.  Line numbers without file name refer to
    that file. *)
From Verif Require Import Base ConstTime Prims HashDomains Wire.

(** * Time: integer microseconds (the code: f64 seconds). *)

(** timing.rs 6 [Timing]: seconds as f64; here integer microseconds *)
Definition time := Z.
Bind Scope Z_scope with time.
(** Literals of constants.rs 11-64 and timing.rs 15-21, in seconds *)
Definition secs (n : Z) : time := (n * 1000000)%Z.

(** constants.rs *)
(** constants.rs 11 *)
Definition REKEY_AFTER_TIME_RESPONDER : time := secs 120.
(** constants.rs 19 *)
Definition REKEY_AFTER_TIME_INITIATOR : time := secs 130.
(** constants.rs 28 *)
Definition REJECT_AFTER_TIME : time := secs 180.
(** constants.rs 33 *)
Definition COOKIE_SECRET_EPOCH : time := secs 120.
(** constants.rs 45 *)
Definition BISCUIT_EPOCH : time := secs 300.
(** constants.rs 53 *)
Definition RETRANSMIT_DELAY_BEGIN : time := 500000%Z.
(** constants.rs 56 *)
Definition RETRANSMIT_DELAY_END : time := secs 10.
(** constants.rs 64 *)
Definition EVENT_GRACE : time := 2500%Z.
(** timing.rs *)
(** timing.rs 15 *)
Definition BCE : time := secs (-3600 * 24 * 356 * 10000).
(** timing.rs 21 *)
Definition UNENDING : time := secs (3600 * 8).
(** timing.rs:44-46 *)
Definition has_happened (ev now : time) : bool := (ev - now <? EVENT_GRACE)%Z.

(** * Data (struct definitions) *)

(** cookies.rs:69-74 [CookieStore] *)
Record cookie_store := { cs_created : time; cs_value : bytes }.

(** 315-322 [HandshakeState]; the chaining key carries its hash function
    (hash_domain.rs:56). *)
Record hs_core := { hc_sidi : bytes; hc_sidr : bytes; hc_ck : bytes; hc_alg : halg }.

(** protocol.rs 326-331 *)
Inductive role := Initiator | Responder.
(** protocol.rs 352-358 [HandshakeStateMachine] *)
Inductive hsm := ExpRespHello | ExpRespConf.

(** protocol.rs 368-409 [InitiatorHandshake]; [tx_at] is never read and is left out. *)
Record ihs := {
  hs_created : time;
  hs_next : hsm;
  hs_cor : hs_core;
  hs_eski : bytes;
  hs_epki : bytes;
  hs_retry_at : time;
  hs_tx_count : N;
  hs_tx_len : nat;
  hs_tx_buf : bytes;
  hs_cookie : cookie_store
}.

(** protocol.rs 416-424 [KnownResponse] *)
Record known := { kr_received : time; kr_mac : bytes; kr_response : bytes }.

(** protocol.rs 544-565 [Session] *)
Record session := {
  se_created : time;
  se_sidm : bytes;
  se_sidt : bytes;
  se_role : role;
  se_ck : bytes;
  se_alg : halg;
  se_txkm : bytes;
  se_txkt : bytes;
  se_txnm : N;
  se_txnt : N
}.

(** protocol.rs 217-268 [Peer]; the protocol version is identified with its hash function
    (148-161: V02 -> blake2b, V03 -> shake256).  protocol.rs 270-297 [zero] has all fields empty. *)
Record peer := {
  p_psk : bytes;
  p_spkt : bytes;
  p_biscuit_used : bytes;
  p_session : option session;
  p_handshake : option ihs;
  p_init_req : bool;
  p_known : option known;
  p_alg : halg;
  p_ds : osk_ds
}.

(** index.rs:21-45 [PeerIndexKey] *)
Inductive ikey := KPeer (id : bytes) | KSid (id : bytes) | KKnown (h : bytes).

(** index.rs 20: the derived [PartialEq] *)
Definition ikey_eqb (a b : ikey) : bool :=
  match a, b with
  | KPeer x, KPeer y | KSid x, KSid y | KKnown x, KKnown y => bytes_eqb x y
  | _, _ => false
  end.

(** protocol.rs 83-144 [CryptoServer].  The [HashMap] index is an association list without
    duplicate keys. The two-element arrays are pairs. The timebase is replaced by a clock
    argument of each operation.  protocol.rs 496-500: [s_khkey] is the key of the [KnownResponseHasher]. *)
Record srv := {
  s_sskm : bytes;
  s_spkm : bytes;
  s_bctr : bytes;
  s_bk0 : cookie_store;
  s_bk1 : cookie_store;
  s_peers : list peer;
  s_index : list (ikey * nat);
  s_khkey : bytes;
  s_poll_off : nat;
  s_cs0 : cookie_store;
  s_cs1 : cookie_store
}.

(** Errors ([anyhow::Error]); only distinguished to make statements precise.  The [bail!], [ensure!] and [context] of protocol.rs 1260-4157. *)
Inductive err :=
| EEmpty | EBadType | EBufferSize | ENoSuchPeer | ENoHandshake | EUnexpected
| EDecrypt | EOutdatedBiscuit | ESidInUse | ESeal | EHashMismatch | ENoValidHash
| ENoSession | EStaleNonce | ENoLastMsg | EUnderLoad | ENoCookie | EPeerExists.

(** * Setters *)

(** protocol.rs 239: assignment to [Peer::session] *)
Definition set_session (x : option session) (p : peer) : peer :=
  {| p_psk := p_psk p; p_spkt := p_spkt p; p_biscuit_used := p_biscuit_used p;
     p_session := x; p_handshake := p_handshake p; p_init_req := p_init_req p;
     p_known := p_known p; p_alg := p_alg p; p_ds := p_ds p |}.
(** protocol.rs 247: assignment to [Peer::handshake] *)
Definition set_handshake (x : option ihs) (p : peer) : peer :=
  {| p_psk := p_psk p; p_spkt := p_spkt p; p_biscuit_used := p_biscuit_used p;
     p_session := p_session p; p_handshake := x; p_init_req := p_init_req p;
     p_known := p_known p; p_alg := p_alg p; p_ds := p_ds p |}.
(** protocol.rs 253: assignment to [Peer::initiation_requested] *)
Definition set_init_req (x : bool) (p : peer) : peer :=
  {| p_psk := p_psk p; p_spkt := p_spkt p; p_biscuit_used := p_biscuit_used p;
     p_session := p_session p; p_handshake := p_handshake p; p_init_req := x;
     p_known := p_known p; p_alg := p_alg p; p_ds := p_ds p |}.
(** protocol.rs 263: assignment to [Peer::known_init_conf_response] *)
Definition set_known (x : option known) (p : peer) : peer :=
  {| p_psk := p_psk p; p_spkt := p_spkt p; p_biscuit_used := p_biscuit_used p;
     p_session := p_session p; p_handshake := p_handshake p; p_init_req := p_init_req p;
     p_known := x; p_alg := p_alg p; p_ds := p_ds p |}.
(** protocol.rs 235: assignment to [Peer::biscuit_used] *)
Definition set_biscuit_used (x : bytes) (p : peer) : peer :=
  {| p_psk := p_psk p; p_spkt := p_spkt p; p_biscuit_used := x;
     p_session := p_session p; p_handshake := p_handshake p; p_init_req := p_init_req p;
     p_known := p_known p; p_alg := p_alg p; p_ds := p_ds p |}.

(** protocol.rs 111: assignment to [CryptoServer::peers] *)
Definition set_peers (x : list peer) (s : srv) : srv :=
  {| s_sskm := s_sskm s; s_spkm := s_spkm s; s_bctr := s_bctr s; s_bk0 := s_bk0 s;
     s_bk1 := s_bk1 s; s_peers := x; s_index := s_index s; s_khkey := s_khkey s;
     s_poll_off := s_poll_off s; s_cs0 := s_cs0 s; s_cs1 := s_cs1 s |}.
(** protocol.rs 113: assignment to [CryptoServer::index] *)
Definition set_index (x : list (ikey * nat)) (s : srv) : srv :=
  {| s_sskm := s_sskm s; s_spkm := s_spkm s; s_bctr := s_bctr s; s_bk0 := s_bk0 s;
     s_bk1 := s_bk1 s; s_peers := s_peers s; s_index := x; s_khkey := s_khkey s;
     s_poll_off := s_poll_off s; s_cs0 := s_cs0 s; s_cs1 := s_cs1 s |}.
(** protocol.rs 100: assignment to [CryptoServer::biscuit_ctr] *)
Definition set_bctr (x : bytes) (s : srv) : srv :=
  {| s_sskm := s_sskm s; s_spkm := s_spkm s; s_bctr := x; s_bk0 := s_bk0 s;
     s_bk1 := s_bk1 s; s_peers := s_peers s; s_index := s_index s; s_khkey := s_khkey s;
     s_poll_off := s_poll_off s; s_cs0 := s_cs0 s; s_cs1 := s_cs1 s |}.
(** protocol.rs 135: assignment to [CryptoServer::peer_poll_off] *)
Definition set_poll_off (x : nat) (s : srv) : srv :=
  {| s_sskm := s_sskm s; s_spkm := s_spkm s; s_bctr := s_bctr s; s_bk0 := s_bk0 s;
     s_bk1 := s_bk1 s; s_peers := s_peers s; s_index := s_index s; s_khkey := s_khkey s;
     s_poll_off := x; s_cs0 := s_cs0 s; s_cs1 := s_cs1 s |}.
(** Element [false] is number 0, [true] is number 1.  protocol.rs 928-935: an element of [biscuit_keys] *)
Definition set_bk (i : bool) (x : cookie_store) (s : srv) : srv :=
  {| s_sskm := s_sskm s; s_spkm := s_spkm s; s_bctr := s_bctr s;
     s_bk0 := if i then s_bk0 s else x; s_bk1 := if i then x else s_bk1 s;
     s_peers := s_peers s; s_index := s_index s; s_khkey := s_khkey s;
     s_poll_off := s_poll_off s; s_cs0 := s_cs0 s; s_cs1 := s_cs1 s |}.
Definition get_bk (i : bool) (s : srv) : cookie_store := if i then s_bk1 s else s_bk0 s.
(** protocol.rs 940-947: an element of [cookie_secrets] *)
Definition set_cs (i : bool) (x : cookie_store) (s : srv) : srv :=
  {| s_sskm := s_sskm s; s_spkm := s_spkm s; s_bctr := s_bctr s;
     s_bk0 := s_bk0 s; s_bk1 := s_bk1 s;
     s_peers := s_peers s; s_index := s_index s; s_khkey := s_khkey s;
     s_poll_off := s_poll_off s;
     s_cs0 := if i then s_cs0 s else x; s_cs1 := if i then x else s_cs1 s |}.
Definition get_cs (i : bool) (s : srv) : cookie_store := if i then s_cs1 s else s_cs0 s.

(** * Methods with [&mut CryptoServer] that return [Result] *)

(** Rust's [Result], `?` and panics, as the methods of protocol.rs 1187-4157 use them; no code of its own in /repo *)
Definition M (A : Type) := srv -> srv * res err A.
Definition ret {A} (a : A) : M A := fun s => (s, Ok a).
Definition fail {A} (e : err) : M A := fun s => (s, Err e).
Definition panic {A} : M A := fun s => (s, Panic).
Definition bind {A B} (m : M A) (k : A -> M B) : M B := fun s =>
  match m s with
  | (s', Ok a) => k a s'
  | (s', Err e) => (s', Err e)
  | (s', Panic) => (s', Panic)
  end.
Definition get : M srv := fun s => (s, Ok s).
Definition modify (f : srv -> srv) : M unit := fun s => (f s, Ok tt).
(** [opt.context(e)?] and [opt.unwrap()]  For example protocol.rs 3036 and 1037 *)
Definition need {A} (e : err) (o : option A) : M A :=
  match o with Some a => ret a | None => fail e end.
Definition unwrap {A} (o : option A) : M A :=
  match o with Some a => ret a | None => panic end.
Definition ensure (b : bool) (e : err) : M unit := if b then ret tt else fail e.

Declare Scope m_scope.
Delimit Scope m_scope with M.
Notation "x <- m ;; k" := (bind m (fun x => k))
  (at level 61, m at next level, right associativity) : m_scope.
Notation "' p <- m ;; k" := (bind m (fun x => match x with p => k end))
  (at level 61, p pattern, m at next level, right associativity) : m_scope.
Notation "m ;;; k" := (bind m (fun _ => k))
  (at level 61, right associativity) : m_scope.
Local Open Scope m_scope.

(** * Index (a HashMap) *)

(** index.rs 16 [PeerIndex]: [HashMap::get], [remove] and [insert] *)
Fixpoint idx_get (k : ikey) (l : list (ikey * nat)) : option nat :=
  match l with
  | [] => None
  | (k', v) :: l' => if ikey_eqb k k' then Some v else idx_get k l'
  end.
Definition idx_del (k : ikey) (l : list (ikey * nat)) : list (ikey * nat) :=
  filter (fun e => negb (ikey_eqb k (fst e))) l.
Definition idx_set (k : ikey) (v : nat) (l : list (ikey * nat)) : list (ikey * nat) :=
  (k, v) :: idx_del k l.

(** * Peer access *)

(** protocol.rs 731-746 [PeerPtr::get], [get_mut]: indexing [srv.peers] panics out of bounds.  protocol.rs 748-830, 865-900, 955-965, 1001-1012: the pointers to the session, handshake, cookie value and known response of a peer are its number, and reading through them is a projection of the peer. *)
Definition get_peer (p : nat) : M peer := fun s =>
  match nth_error (s_peers s) p with
  | Some x => (s, Ok x)
  | None => (s, Panic)
  end.
Definition put_peer (p : nat) (x : peer) : M unit := fun s =>
  if Nat.ltb p (length (s_peers s))
  then (set_peers (upd p x (s_peers s)) s, Ok tt)
  else (s, Panic).
Definition upd_peer (p : nat) (f : peer -> peer) : M unit :=
  x <- get_peer p ;; put_peer p (f x).

(** * Session and handshake tables *)

(** protocol.rs 1303-1312 [register_session] *)
Definition register_session (id : bytes) (p : nat) : M unit :=
  s <- get ;;
  match idx_get (KSid id) (s_index s) with
  | Some q => if Nat.eqb q p then ret tt else fail ESidInUse
  | None => modify (fun s => set_index (idx_set (KSid id) p (s_index s)) s)
  end.

(** protocol.rs 1322-1324 [unregister_session] *)
Definition unregister_session (id : bytes) : M unit :=
  modify (fun s => set_index (idx_del (KSid id) (s_index s)) s).

(** protocol.rs 1339-1386: the tests of a session or handshake for its id *)
Definition ses_has_id (id : bytes) (o : option session) : bool :=
  match o with Some x => bytes_eqb (se_sidm x) id | None => false end.
Definition hs_has_id (id : bytes) (o : option ihs) : bool :=
  match o with Some x => bytes_eqb (hc_sidi (hs_cor x)) id | None => false end.

(** protocol.rs 1339-1345 [unregister_session_if_vacant] *)
Definition unregister_session_if_vacant (id : bytes) (p : nat) : M unit :=
  x <- get_peer p ;;
  if ses_has_id id (p_session x) then ret tt
  else if hs_has_id id (p_handshake x) then ret tt
  else unregister_session id.

(** protocol.rs 851-857 [IniHsPtr::take] *)
Definition hs_take (p : nat) : M (option ihs) :=
  x <- get_peer p ;;
  put_peer p (set_handshake None x) ;;;
  match p_handshake x with
  | Some stale => unregister_session_if_vacant (hc_sidi (hs_cor stale)) p
  | None => ret tt
  end ;;;
  ret (p_handshake x).

(** protocol.rs 833-842 [IniHsPtr::insert] *)
Definition hs_insert (p : nat) (h : ihs) : M unit :=
  register_session (hc_sidi (hs_cor h)) p ;;;
  hs_take p ;;;
  upd_peer p (set_init_req false) ;;;
  upd_peer p (set_handshake (Some h)).

(** protocol.rs 917-923 [SessionPtr::take] *)
Definition ses_take (p : nat) : M (option session) :=
  x <- get_peer p ;;
  put_peer p (set_session None x) ;;;
  match p_session x with
  | Some stale => unregister_session_if_vacant (se_sidm stale) p
  | None => ret tt
  end ;;;
  ret (p_session x).

(** protocol.rs 904-908 [SessionPtr::insert] *)
Definition ses_insert (p : nat) (x : session) : M unit :=
  ses_take p ;;;
  register_session (se_sidm x) p ;;;
  upd_peer p (set_session (Some x)).

(** protocol.rs 1034-1040 [KnownInitConfResponsePtr::remove] *)
Definition known_remove (p : nat) : M (option known) :=
  x <- get_peer p ;;
  match p_known x with
  | None => ret None
  | Some v =>
      put_peer p (set_known None x) ;;;
      s <- get ;;
      unwrap (idx_get (KKnown (kr_mac v)) (s_index s)) ;;;
      modify (fun s => set_index (idx_del (KKnown (kr_mac v)) (s_index s)) s) ;;;
      ret (Some v)
  end.

(** protocol.rs 1053-1082 [KnownInitConfResponsePtr::insert]; the warning of line 1072 is not
    modelled as an effect. *)
Definition known_insert (p : nat) (v : known) : M unit :=
  known_remove p ;;;
  upd_peer p (set_known (Some v)) ;;;
  modify (fun s => set_index (idx_set (KKnown (kr_mac v)) p (s_index s)) s).

(** protocol.rs 1351-1355 [find_peer] *)
Definition find_peer (s : srv) (id : bytes) : option nat :=
  idx_get (KPeer id) (s_index s).

(** protocol.rs 1360-1371 [lookup_handshake].  [None] inside the outer option is a panic of
    [srv.peers[...]]. *)
Definition lookup_handshake (id : bytes) : M (option nat) :=
  s <- get ;;
  match idx_get (KSid id) (s_index s) with
  | None => ret None
  | Some p =>
      x <- get_peer p ;;
      ret (if hs_has_id id (p_handshake x) then Some p else None)
  end.

(** protocol.rs 1376-1386 [lookup_session] *)
Definition lookup_session (id : bytes) : M (option nat) :=
  s <- get ;;
  match idx_get (KSid id) (s_index s) with
  | None => ret None
  | Some p =>
      x <- get_peer p ;;
      ret (if ses_has_id id (p_session x) then Some p else None)
  end.

(** * Life cycle *)

(** protocol.rs 574-591 *)
Inductive lifecycle := Void | Dead | Retired | Young.

(** protocol.rs 1844-1851 [lifecycle], from the optional retirement and death times. *)
Definition lifecycle_of (now : time) (retire die : option time) : lifecycle :=
  match die, retire with
  | Some d, Some r =>
      if has_happened (d - now) 0 then Dead
      else if has_happened (r - now) 0 then Retired else Young
  | Some d, None => if has_happened (d - now) 0 then Dead else Void
  | None, Some r => if has_happened (r - now) 0 then Retired else Void
  | None, None => Void
  end.

(** protocol.rs 1611-1626 *)
Definition hs_die_at (o : option ihs) : option time :=
  option_map (fun h => hs_created h + REJECT_AFTER_TIME)%Z o.
Definition hs_retire_at := hs_die_at.
(** protocol.rs 1628-1657 *)
Definition ses_retire_at (o : option session) : option time :=
  option_map (fun x => se_created x +
    match se_role x with
    | Initiator => REKEY_AFTER_TIME_INITIATOR
    | Responder => REKEY_AFTER_TIME_RESPONDER
    end)%Z o.
Definition ses_die_at (o : option session) : option time :=
  option_map (fun x => se_created x + REJECT_AFTER_TIME)%Z o.
(** protocol.rs 1659-1675 *)
Definition store_created_at (c : cookie_store) : option time :=
  if (cs_created c <? 0)%Z then None else Some (cs_created c).
Definition bk_retire_at (c : cookie_store) : option time :=
  option_map (fun t => t + BISCUIT_EPOCH)%Z (store_created_at c).
Definition bk_die_at (c : cookie_store) : option time :=
  option_map (fun t => t + BISCUIT_EPOCH)%Z (bk_retire_at c).
(** protocol.rs 1677-1693 *)
Definition sec_retire_at (c : cookie_store) : option time :=
  option_map (fun t => t + COOKIE_SECRET_EPOCH)%Z (store_created_at c).
Definition sec_die_at (c : cookie_store) : option time :=
  option_map (fun t => t + COOKIE_SECRET_EPOCH)%Z (sec_retire_at c).
(** protocol.rs 1719-1735 *)
Definition known_die_at (o : option known) : option time :=
  match o with
  | Some k => if (kr_received k <? 0)%Z then None
              else Some (kr_received k + REKEY_AFTER_TIME_RESPONDER)%Z
  | None => None
  end.
(** protocol.rs 1836-1842 [life_left], [youth_left] *)
Definition left (now : time) (t : option time) : option time :=
  option_map (fun t => t - now)%Z t.

(** protocol.rs 1659-1675 with 1844-1851 *)
Definition bk_lifecycle (now : time) (c : cookie_store) : lifecycle :=
  lifecycle_of now (bk_retire_at c) (bk_die_at c).
(** protocol.rs 1677-1693 with 1844-1851 *)
Definition sec_lifecycle (now : time) (c : cookie_store) : lifecycle :=
  lifecycle_of now (sec_retire_at c) (sec_die_at c).

(** * Randomness of one API call.  Each field stands for one draw from the
    random number generator; a call that does not reach the draw ignores it.  The places are named in the functions of Protocol.v; all draws of protocol.rs 1187-4157 are here. *)
Record coins := {
  c_sid : bytes;        (* new session id, 4 bytes *)
  c_kp : bytes;         (* ephemeral key generation *)
  c_enc1 : bytes;       (* first encapsulation *)
  c_enc2 : bytes;       (* second encapsulation *)
  c_bkey : bytes;       (* fresh biscuit key *)
  c_bnonce : bytes;     (* biscuit nonce, 24 bytes *)
  c_cookie : bytes;     (* initial cookie value of a handshake, 16 bytes *)
  c_secret : bytes;     (* fresh cookie secret *)
  c_xnonce : bytes;     (* cookie reply nonce, 24 bytes *)
  c_pad : bytes;        (* cookie reply padding, 996 bytes *)
  c_jitter : Z;         (* numerator of rand::random::<f64>() over 2^53 *)
  c_erase : nat -> bytes (* values overwriting erased keys *)
}.

(** Sizes guaranteed by the Rust types of the drawn values.  basic_types.rs 12-32, msgs.rs 21-40, 349-351 and protocol.rs 3046. *)
Definition wf_coins (c : coins) : Prop :=
  length (c_sid c) = 4 /\ length (c_bnonce c) = 24 /\ length (c_cookie c) = 16 /\
  length (c_xnonce c) = 24 /\ length (c_pad c) = 996 /\
  (0 <= c_jitter c < 2 ^ 53)%Z.

(** * Keys of the server *)

(** protocol.rs 1416-1438 [active_biscuit_key]; returns the slot number. *)
Definition active_biscuit_key (now : time) (c : coins) : M bool :=
  s <- get ;;
  let t := cs_created (s_bk0 s) in
  let u := cs_created (s_bk1 s) in
  let r := if (t >=? u)%Z then false else true in
  match bk_lifecycle now (get_bk r s) with
  | Young => ret r
  | _ =>
      let r := if (t <? u)%Z then false else true in
      modify (set_bk r {| cs_created := now; cs_value := c_bkey c |}) ;;;
      ret r
  end.

(** protocol.rs 1455, 1461: the condition on a secret *)
Definition live_secret (now : time) (c : cookie_store) : bool :=
  match sec_lifecycle now c with Young | Retired => true | _ => false end.

(** protocol.rs 1447-1474 [active_or_retired_cookie_secrets]; the list has the [Some] entries in
    order. *)
Definition active_or_retired_cookie_secrets (now : time) (c : coins) : M (list bool) :=
  s <- get ;;
  let t := cs_created (s_cs0 s) in
  let u := cs_created (s_cs1 s) in
  let young := if (t >=? u)%Z then false else true in
  let old := negb young in
  let l := (if live_secret now (get_cs young s) then [young] else [])
           ++ (if live_secret now (get_cs old s) then [old] else []) in
  match l with
  | [] =>
      modify (set_cs old {| cs_created := now; cs_value := c_secret c |}) ;;;
      ret [old]
  | _ => ret l
  end.

(** * Construction *)

(** protocol.rs 1558-1563 [CookieStore::new] *)
Definition new_store (v : bytes) : cookie_store := {| cs_created := BCE; cs_value := v |}.

(** protocol.rs 1187-1203 [CryptoServer::new] with the random values of 1196-1201. *)
Definition server_new (sk pk : bytes) (b0 b1 k0 k1 hk : bytes) : srv :=
  {| s_sskm := sk; s_spkm := pk;
     s_bctr := [x01; x00; x00; x00; x00; x00; x00; x00; x00; x00; x00; x00];
     s_bk0 := new_store b0; s_bk1 := new_store b1;
     s_peers := []; s_index := []; s_khkey := hk; s_poll_off := 0;
     s_cs0 := new_store k0; s_cs1 := new_store k1 |}.

Section WithPrims.
Context (P : prims).

(** protocol.rs 1511-1516 [Peer::pidt] *)
Definition pidt (x : peer) : bytes := peer_id P (p_alg x) (p_spkt x).

(** protocol.rs 1260-1289 [add_peer] *)
Definition new_peer (psk : option bytes) (pk : bytes) (a : halg) (ds : osk_ds) : peer :=
  {| p_psk := match psk with Some k => k | None => zeros 32 end;
     p_spkt := pk; p_biscuit_used := zeros 12; p_session := None; p_handshake := None;
     p_init_req := false; p_known := None; p_alg := a; p_ds := ds |}.
Definition add_peer (psk : option bytes) (pk : bytes) (a : halg) (ds : osk_ds) : M nat :=
  let x := new_peer psk pk a ds in
  s <- get ;;
  match idx_get (KPeer (pidt x)) (s_index s) with
  | Some _ => fail EPeerExists
  | None =>
      let n := length (s_peers s) in
      modify (fun s => set_index (idx_set (KPeer (pidt x)) n (s_index s)) s) ;;;
      modify (fun s => set_peers (s_peers s ++ [x]) s) ;;;
      ret n
  end.

End WithPrims.
