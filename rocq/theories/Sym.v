(** The handshake of rosenpass/src/protocol/protocol.rs over symbolic terms, against an attacker who
    owns the network.  Line numbers without file name refer to that file.

    The functions below are those of Protocol.v with terms instead of bytes.  PSymLink.v shows that
    they compute the same bytes when the terms are evaluated with the primitives.  A term model is an
    idealisation: two values are equal only if they were computed in the same way, fresh values never
    collide, and the primitives give nothing but their intended results (hash functions are not
    invertible, ciphers cannot be forged, KEMs reject implicitly).

    Everything that only restricts what an honest party does (macs, cookies, timers, the biscuit
    counter, known responses, the state of a handshake) is left out: the parties here do more than the
    code, so what they never leak the code never leaks.  The mac and the cookie of an envelope are
    left out as well; the mac is a hash of public values (3081-3084). *)
From Verif Require Import Base Prims HashDomains.
From Coq Require Strings.String.
Import (notations) Coq.Strings.String.

(** * Terms *)

(** Values drawn or configured by honest parties, and the attacker's own.  protocol.rs; line numbers with each constructor *)
Inductive name :=
| NStatic (agent : nat)            (* static secret key, 91 *)
| NPsk (i : nat)                   (* pre-shared key *)
| NBk (agent k : nat)              (* the [k]th biscuit key of an agent *)
| NEsk (run : nat)                 (* coins of the ephemeral key pair, 3574 *)
| NCoin (run : nat) (second : bool) (* coins of the encapsulations, 3592, 3754, 3769 *)
| NSid (run : nat)                 (* session id, 3567, 3736 *)
| NNonce (run : nat)               (* nonce of a biscuit, 3347 *)
| NAdv (i : nat).                  (* drawn by the attacker *)

(** Byte strings by how they were computed.  [e] tells the ephemeral KEM (Kyber) from the static one
    (Classic McEliece), [x] XChaCha20Poly1305 from ChaCha20Poly1305.  No code in /repo: the values of Prims.v. *)
Inductive term :=
| Lit (b : bytes)
| Nm (n : name)
| Pair (a b : term)
| H (g : halg) (k d : term)
| Pk (e : bool) (s : term)
| Ct (e : bool) (pk r : term)
| Shk (e : bool) (pk r : term)
| Bad (e : bool) (s ct : term)
| Aead (x : bool) (k n ad pt : term).

(** No code in /repo: equality of terms. *)
Definition byte_eq_dec : forall x y : byte, {x = y} + {x <> y} := Byte.byte_eq_dec.
(** No code in /repo: equality of terms. *)
Definition name_eq_dec (x y : name) : {x = y} + {x <> y}.
Proof. repeat decide equality. Defined.
(** No code in /repo: equality of terms. *)
Definition term_eq_dec (x y : term) : {x = y} + {x <> y}.
Proof. 
  decide equality; try apply (list_eq_dec byte_eq_dec); try apply name_eq_dec;
  try apply Bool.bool_dec; decide equality.
Defined.
(** No code in /repo: equality of terms. *)
Definition term_eqb (x y : term) : bool := if term_eq_dec x y then true else false.

(** Decapsulation: the shared key if the ciphertext was made for this key pair, otherwise a value
    that depends on the secret key (implicit rejection of both KEMs).  Prims.v [skem_dec], [ekem_dec]; oqs/src/kem_macro.rs 84-95. *)
Definition kdec (e : bool) (s ct : term) : term :=
  match ct with
  | Ct e' (Pk e2 s') r =>
      if Bool.eqb e e' && Bool.eqb e e2 && term_eqb s s' then Shk e (Pk e s) r else Bad e s ct
  | _ => Bad e s ct
  end.

(** Decryption with key, nonce and additional data.  Prims.v; cipher-traits/src/primitives/aead.rs 75-147 *)
Definition sdec (x : bool) (k n ad ct : term) : option term :=
  match ct with
  | Aead x' k' n' ad' pt =>
      if Bool.eqb x x' && term_eqb k k' && term_eqb n n' && term_eqb ad ad' then Some pt else None
  | _ => None
  end.

(** * Labels, rosenpass/src/hash_domains.rs:111-324 *)

(** hash_domains.rs 111-119 *)
Definition s_root (g : halg) : term := H g (Lit (zeros 32)) (Lit (protocol_label g)).
(** hash_domains.rs 167-178 *)
Definition s_peerid g := H g (s_root g) (Lit (str "peer id")).
(** hash_domains.rs 179-191 *)
Definition s_biscuit_ad g := H g (s_root g) (Lit (str "biscuit additional data")).
(** hash_domains.rs 192-203 *)
Definition s_ckinit g := H g (s_root g) (Lit (str "chaining key init")).
(** hash_domains.rs 204-222 *)
Definition s_ckextract g := H g (s_root g) (Lit (str "chaining key extract")).
(** hash_domains.rs 224-236 *)
Definition s_mix g := H g (s_ckextract g) (Lit (str "mix")).
(** hash_domains.rs 237-255 *)
Definition s_hs_enc g := H g (s_ckextract g) (Lit (str "handshake encryption")).
(** hash_domains.rs 273-290 *)
Definition s_res_enc g := H g (s_ckextract g) (Lit (str "responder handshake encryption")).
(** hash_domains.rs 292-303 *)
Definition s_user g := H g (s_ckextract g) (Lit (str "user")).
(** osk_domain_separator.rs:80-90 *)
Definition s_ds (g : halg) (d : osk_ds) : term :=
  match d with
  | ExtensionWireguardPsk =>
      H g (H g (s_user g) (Lit (str "rosenpass.eu"))) (Lit (str "wireguard psk"))
  | Custom ns labels => fold_left (fun k l => H g k (Lit l)) labels (H g (s_user g) (Lit ns))
  end.
(** protocol.rs 1217-1222, 1511-1516 *)
Definition s_pid (g : halg) (pk : term) : term := H g (s_peerid g) pk.

(** * Chaining key *)

(** protocol.rs 3156-3162 *)
Definition s_start (g : halg) (pk : term) : term := H g (s_ckinit g) pk.
(** protocol.rs 3166-3173 *)
Definition s_ckmix (g : halg) (ck x : term) : term := H g (H g ck (s_mix g)) x.
(** protocol.rs 3178-3181 *)
Definition s_key (g : halg) (ck : term) : term := H g ck (s_hs_enc g).
(** protocol.rs 3177-3185 *)
Definition s_tag (k pt : term) : term := Aead false k (Lit (zeros 12)) (Lit []) pt.
Definition s_seal (g : halg) (ck pt : term) : term * term :=
  let ct := s_tag (s_key g ck) pt in (ct, s_ckmix g ck ct).
(** protocol.rs 3191-3199 *)
Definition s_open (g : halg) (ck ct : term) : option (term * term) :=
  match sdec false (s_key g ck) (Lit (zeros 12)) (Lit []) ct with
  | Some pt => Some (pt, s_ckmix g ck ct)
  | None => None
  end.
(** protocol.rs 3261, 3283 *)
Definition s_kemmix (g : halg) (ck pk shk ct : term) : term :=
  s_ckmix g (s_ckmix g (s_ckmix g ck pk) shk) ct.

(** * Messages and configuration *)

(** Payloads, rosenpass/src/msgs.rs  rosenpass/src/msgs.rs 131-250 *)
Record s_ih := { y_sidi : term; y_epki : term; y_sctr : term; y_pidct : term; y_auth : term }.
Record s_rh := { z_sidr : term; z_sidi : term; z_ecti : term; z_scti : term; z_auth : term;
                 z_biscuit : term }.
Record s_ic := { w_sidi : term; w_sidr : term; w_biscuit : term; w_auth : term }.

(** A configured peer: public key, pre-shared key (the literal of 32 zeros if there is none), hash
    function.  Any term can be configured as public key, also one of the attacker. *)
Record entry := { e_pk : term; e_psk : term; e_alg : halg }.

(** protocol.rs 91: the static key pair of an agent *)
Definition skey (A : nat) : term := Nm (NStatic A).
Definition pkey (A : nat) : term := Pk false (skey A).

(** * The four computations of the handshake *)

(** protocol.rs 3539-3642 [handle_initiation]: InitHello and chaining key *)
Definition s_init (run A : nat) (p : entry) : s_ih * term :=
  let g := e_alg p in
  let sid := Nm (NSid run) in
  let epk := Pk true (Nm (NEsk run)) in
  let r := Nm (NCoin run false) in
  let ck := s_start g (e_pk p) in
  let ck := s_ckmix g ck sid in
  let ck := s_ckmix g ck epk in
  let sctr := Ct false (e_pk p) r in
  let ck := s_kemmix g ck (e_pk p) (Shk false (e_pk p) r) sctr in
  let '(pidct, ck) := s_seal g ck (s_pid g (pkey A)) in
  let ck := s_ckmix g ck (pkey A) in
  let ck := s_ckmix g ck (e_psk p) in
  let '(auth, ck) := s_seal g ck (Lit []) in
  ({| y_sidi := sid; y_epki := epk; y_sctr := sctr; y_pidct := pidct; y_auth := auth |}, ck).

(** protocol.rs 3312-3360 [store_biscuit] *)
Definition s_biscuit_adata (g : halg) (pk sidi sidr : term) : term :=
  H g (H g (H g (s_biscuit_ad g) pk) sidi) sidr.
Definition s_biscuit (run B k : nat) (bno : bytes) (q : entry) (sidi sidr ck : term) : term :=
  Aead true (Nm (NBk B k)) (Nm (NNonce run)) (s_biscuit_adata (e_alg q) (pkey B) sidi sidr)
    (Pair (s_pid (e_alg q) (e_pk q)) (Pair (Lit bno) ck)).

(** protocol.rs 1351-1355 [find_peer] *)
Definition s_find (peers : list entry) (pid : term) : option entry :=
  find (fun q => term_eqb pid (s_pid (e_alg q) (e_pk q))) peers.

(** protocol.rs 3665-3799 [handle_init_hello] with hash function [g], 2215 [verify_hash_choice_match]: peer,
    answer, and the chaining key that goes into the biscuit *)
Definition s_resp (peers : list entry) (run B k : nat) (bno : bytes) (g : halg) (m : s_ih)
  : option (entry * s_rh * term) :=
  let ck := s_start g (pkey B) in
  let ck := s_ckmix g ck (y_sidi m) in
  let ck := s_ckmix g ck (y_epki m) in
  let ck := s_kemmix g ck (pkey B) (kdec false (skey B) (y_sctr m)) (y_sctr m) in
  match s_open g ck (y_pidct m) with
  | None => None
  | Some (pid, ck) =>
      match s_find peers pid with
      | None => None
      | Some q =>
          let ck := s_ckmix g ck (e_pk q) in
          let ck := s_ckmix g ck (e_psk q) in
          match s_open g ck (y_auth m) with
          | None => None
          | Some (_, ck) =>
              if halg_eqb (e_alg q) g then
                let sidr := Nm (NSid run) in
                let sidi := y_sidi m in
                let ck := s_ckmix g ck sidr in
                let ck := s_ckmix g ck sidi in
                let r1 := Nm (NCoin run false) in
                let ecti := Ct true (y_epki m) r1 in
                let ck := s_kemmix g ck (y_epki m) (Shk true (y_epki m) r1) ecti in
                let r2 := Nm (NCoin run true) in
                let scti := Ct false (e_pk q) r2 in
                let ck := s_kemmix g ck (e_pk q) (Shk false (e_pk q) r2) scti in
                let b := s_biscuit run B k bno q sidi sidr ck in
                let '(auth, _) := s_seal g (s_ckmix g ck b) (Lit []) in
                Some (q, {| z_sidr := sidr; z_sidi := sidi; z_ecti := ecti; z_scti := scti;
                            z_auth := auth; z_biscuit := b |}, ck)
              else None
          end
      end
  end.

(** protocol.rs 3803-3915 [handle_resp_hello] by the handshake that [s_init run A p] started: InitConf and final
    chaining key *)
Definition s_conf (run A : nat) (p : entry) (m : s_rh) : option (s_ic * term) :=
  let g := e_alg p in
  if term_eqb (z_sidi m) (Nm (NSid run)) then
    let ck := snd (s_init run A p) in
    let ck := s_ckmix g ck (z_sidr m) in
    let ck := s_ckmix g ck (z_sidi m) in
    let ck := s_kemmix g ck (Pk true (Nm (NEsk run))) (kdec true (Nm (NEsk run)) (z_ecti m)) (z_ecti m) in
    let ck := s_kemmix g ck (pkey A) (kdec false (skey A) (z_scti m)) (z_scti m) in
    let ck := s_ckmix g ck (z_biscuit m) in
    match s_open g ck (z_auth m) with
    | None => None
    | Some (_, ck) =>
        let ck := s_ckmix g ck (z_sidi m) in
        let ck := s_ckmix g ck (z_sidr m) in
        let '(auth, ck) := s_seal g ck (Lit []) in
        Some ({| w_sidi := z_sidi m; w_sidr := z_sidr m; w_biscuit := z_biscuit m;
                 w_auth := auth |}, ck)
    end
  else None.

(** protocol.rs 3363-3409 [load_biscuit] with biscuit key [k] and hash function [g] *)
Definition s_unbiscuit (B k : nat) (g : halg) (sidi sidr ct : term) : option (term * term) :=
  match ct with
  | Aead _ _ n _ _ =>
      match sdec true (Nm (NBk B k)) n (s_biscuit_adata g (pkey B) sidi sidr) ct with
      | Some (Pair pid (Pair _ ck)) => Some (pid, ck)
      | _ => None
      end
  | _ => None
  end.
(** protocol.rs 3922-4024 [handle_init_conf]: peer and final chaining key *)
Definition s_done (peers : list entry) (B k : nat) (g : halg) (m : s_ic) : option (entry * term) :=
  match s_unbiscuit B k g (w_sidi m) (w_sidr m) (w_biscuit m) with
  | None => None
  | Some (pid, ck) =>
      match s_find peers pid with
      | None => None
      | Some q =>
          let g := e_alg q in
          let ck := s_ckmix g ck (w_biscuit m) in
          let '(_, ck) := s_seal g ck (Lit []) in
          let ck := s_ckmix g ck (w_sidi m) in
          let ck := s_ckmix g ck (w_sidr m) in
          match s_open g ck (w_auth m) with
          | Some (_, ck) => Some (q, ck)
          | None => None
          end
      end
  end.
(** protocol.rs 4010-4021: the tag of the EmptyData message, under the responder's key (3426-3428) *)
Definition s_empty (g : halg) (ck : term) (ctr : bytes) : term :=
  Aead false (H g ck (s_res_enc g)) (Lit (ctr ++ zeros 4)) (Lit []) (Lit []).
(** protocol.rs 3453-3478 [osk_with_domain_separator]; the term [l] is the label *)
Definition s_osk (g : halg) (ck l : term) : term := H g ck l.

(** * Runs *)

(** What happens, as seen from outside.  Agents are numbered; [run] numbers the fresh values.  No code in /repo: the calls of protocol.rs 3539-4060. *)
Inductive event :=
| EInit (run A : nat) (p : entry)                                    (* [A] starts a handshake *)
| EResp (run B k : nat) (bno : bytes) (g : halg) (m : s_ih)          (* [B] answers InitHello [m] *)
| EConf (run A : nat) (p : entry) (m : s_rh)                         (* [A] accepts RespHello [m] *)
| EDone (B k : nat) (g : halg) (m : s_ic) (ctr : bytes)              (* [B] accepts InitConf [m] *)
| EFin (run A : nat) (p : entry) (m : s_rh) (ctr : bytes) (d : term) (* [A] accepts EmptyData [d] *)
| EReveal (n : name)                                                 (* the attacker learns a value *)
| EOsk (g : halg) (ck l : term).                                     (* ... or an output key *)

(** rosenpass/src/msgs.rs 131-250: the fields of the messages *)
Definition ih_fields (m : s_ih) : list term := [y_sidi m; y_epki m; y_sctr m; y_pidct m; y_auth m].
Definition rh_fields (m : s_rh) : list term :=
  [z_sidr m; z_sidi m; z_ecti m; z_scti m; z_auth m; z_biscuit m].
Definition ic_fields (m : s_ic) : list term := [w_sidi m; w_sidr m; w_biscuit m; w_auth m].

Section Runs.
(** The peers of every agent. *)
Context (cfg : nat -> list entry).

(** What an event puts on the network (or into the attacker's hands).  The answers of protocol.rs 3539-4024. *)
Definition sent (e : event) : list term :=
  match e with
  | EInit run A p => ih_fields (fst (s_init run A p))
  | EResp run B k bno g m =>
      match s_resp (cfg B) run B k bno g m with Some (_, rh, _) => rh_fields rh | None => [] end
  | EConf run A p m => match s_conf run A p m with Some (ic, _) => ic_fields ic | None => [] end
  | EDone B k g m ctr =>
      match s_done (cfg B) B k g m with
      | Some (q, ck) => [w_sidi m; Lit ctr; s_empty (e_alg q) ck ctr]
      | None => []
      end
  | EFin _ _ _ _ _ _ => []
  | EReveal n => [Nm n]
  | EOsk g ck l => [s_osk g ck l]
  end.

(** What the attacker can compute after the events [tr]: everything sent, all public keys, literals
    and own values, and what follows with the primitives.  No code in /repo: the attacker. *)
Inductive knows (tr : list event) : term -> Prop :=
| k_sent e t : In e tr -> In t (sent e) -> knows tr t
| k_lit b : knows tr (Lit b)
| k_adv i : knows tr (Nm (NAdv i))
| k_public A : knows tr (pkey A)
| k_pair a b : knows tr a -> knows tr b -> knows tr (Pair a b)
| k_fst a b : knows tr (Pair a b) -> knows tr a
| k_snd a b : knows tr (Pair a b) -> knows tr b
| k_hash g k d : knows tr k -> knows tr d -> knows tr (H g k d)
| k_pk e s : knows tr s -> knows tr (Pk e s)
| k_ct e pk r : knows tr pk -> knows tr r -> knows tr (Ct e pk r)
| k_shk e pk r : knows tr pk -> knows tr r -> knows tr (Shk e pk r)
| k_dec e s ct : knows tr s -> knows tr ct -> knows tr (kdec e s ct)
| k_enc x k n ad pt : knows tr k -> knows tr n -> knows tr ad -> knows tr pt ->
    knows tr (Aead x k n ad pt)
| k_open x k n ad pt : knows tr (Aead x k n ad pt) -> knows tr k -> knows tr pt
| k_nonce k n ad pt : knows tr (Aead true k n ad pt) -> knows tr n. (* sent in front, aead.rs:100-120 *)

(** The fresh values of [run] were not drawn before.  No code in /repo: randomness. *)
Definition fresh (run : nat) (tr : list event) : Prop :=
  (forall A p, ~ In (EInit run A p) tr) /\ (forall B k bno g m, ~ In (EResp run B k bno g m) tr).

(** An agent has finished a handshake with chaining key [ck].  protocol.rs 3803-4024 *)
Definition completed (tr : list event) (g : halg) (ck : term) : Prop :=
  (exists run A p m ic, In (EConf run A p m) tr /\ s_conf run A p m = Some (ic, ck) /\ g = e_alg p) \/
  (exists B k g' m ctr q, In (EDone B k g' m ctr) tr /\ s_done (cfg B) B k g' m = Some (q, ck) /\
     g = e_alg q).

(** The runs: honest agents act on any messages the attacker can make; last event first.  No code in /repo: the network. *)
Inductive valid : list event -> Prop :=
| v_nil : valid []
| v_init tr run A p : valid tr -> fresh run tr -> In p (cfg A) -> valid (EInit run A p :: tr)
| v_resp tr run B k bno g m r : valid tr -> fresh run tr ->
    (forall t, In t (ih_fields m) -> knows tr t) -> s_resp (cfg B) run B k bno g m = Some r ->
    valid (EResp run B k bno g m :: tr)
| v_conf tr run A p m r : valid tr -> In (EInit run A p) tr ->
    (forall t, In t (rh_fields m) -> knows tr t) -> s_conf run A p m = Some r ->
    valid (EConf run A p m :: tr)
| v_done tr B k g m ctr r : valid tr ->
    (forall t, In t (ic_fields m) -> knows tr t) -> s_done (cfg B) B k g m = Some r ->
    valid (EDone B k g m ctr :: tr)
| v_fin tr run A p m ctr d ic ck pt : valid tr -> In (EConf run A p m) tr ->
    s_conf run A p m = Some (ic, ck) -> knows tr d ->
    sdec false (H (e_alg p) ck (s_res_enc (e_alg p))) (Lit (ctr ++ zeros 4)) (Lit []) d = Some pt ->
    valid (EFin run A p m ctr d :: tr)
| v_reveal tr n : valid tr -> valid (EReveal n :: tr)
| v_osk tr g ck ds : valid tr -> completed tr g ck -> valid (EOsk g ck (s_ds g ds) :: tr).

(** The attacker was given the value [n].  No code in /repo: the attacker. *)
Definition revealed (tr : list event) (n : name) : Prop := In (EReveal n) tr.

End Runs.
