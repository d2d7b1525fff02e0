(** Construction of a [CryptoServer] from its parts, and the [supply_keypair] API call.
    Line numbers without a file name refer to rosenpass/src/protocol/build_crypto_server.rs. *)
From Verif Require Import Base ConstTime Prims HashDomains Wire Server Protocol Wp Inv Rules Calls PollRules System.

(** build_crypto_server.rs 227-235 [PeerParams]; a protocol version is identified with its hash function. *)
Record peer_params := {
  pp_psk : option bytes; pp_pk : bytes; pp_alg : halg; pp_ds : osk_ds
}.

(** build_crypto_server.rs 175-180 [BuildCryptoServer]; a keypair is the pair (secret key, public key), 38-43.  build_crypto_server.rs 66-113, 239-270: constructors and projections *)
Record builder := { b_keypair : option (bytes * bytes); b_peers : list peer_params }.

(** build_crypto_server.rs 244-246 [empty] *)
Definition builder_empty : builder := {| b_keypair := None; b_peers := [] |}.

(** build_crypto_server.rs 319-323 [with_keypair]: [None] is [KeypairAlreadySet]. *)
Definition with_keypair (kp : bytes * bytes) (b : builder) : option builder :=
  match b_keypair b with
  | Some _ => None
  | None => Some {| b_keypair := Some kp; b_peers := b_peers b |}
  end.

(** build_crypto_server.rs 364-379 [with_added_peer] *)
Definition with_added_peer (p : peer_params) (b : builder) : builder :=
  {| b_keypair := b_keypair b; b_peers := b_peers b ++ [p] |}.

(** build_crypto_server.rs 382-392 [add_peer] *)
Definition builder_add_peer (p : peer_params) (b : builder) : builder * nat :=
  (with_added_peer p b, length (b_peers b)).

(** build_crypto_server.rs 260-262 [take_parts], 249-254 [from_parts], 442-444 [emancipate]: the parts move to a new
    builder and leave an empty one. *)
Definition emancipate (b : builder) : builder * builder := (builder_empty, b).

(** The random values drawn by [CryptoServer::new] (protocol.rs:1187-1203). *)
Record draws := {
  dr_b0 : bytes; dr_b1 : bytes; dr_k0 : bytes; dr_k1 : bytes; dr_hk : bytes
}.

(** build_crypto_server.rs 191-222: what [build] fails with *)
Inductive berr := MissingKeypair | BadPeer (e : err).

Section WithPrims.
Context (P : prims).

(** build_crypto_server.rs 198-213: the loop over the peers. *)
Fixpoint build_peers (idx : nat) (ps : list peer_params) (s : srv) : res berr srv :=
  match ps with
  | [] => Ok s
  | p :: ps' =>
      match add_peer P (pp_psk p) (pp_pk p) (pp_alg p) (pp_ds p) s with
      | (s', Ok idx2) => if Nat.eqb idx idx2 then build_peers (S idx) ps' s' else Panic
      | (_, Err e) => Err (BadPeer e)
      | (_, Panic) => Panic
      end
  end.

(** build_crypto_server.rs 191-216 [build] *)
Definition build (d : draws) (b : builder) : res berr srv :=
  match b_keypair b with
  | None => Err MissingKeypair
  | Some (sk, pk) =>
      build_peers 0 (b_peers b)
        (server_new sk pk (dr_b0 d) (dr_b1 d) (dr_k0 d) (dr_k1 d) (dr_hk d))
  end.

(** util/src/build.rs:148-158 [ConstructionSite], for [BuildCryptoServer]. *)
Inductive site := Void | Building (b : builder) | Product (s : srv).

(** util/src/build.rs:10-20 [ConstructionSiteErectError] *)
Inductive erect_err := IsVoid | AlreadyBuilt | Other (e : berr).

(** util/src/build.rs:457-476 [erect]; [modify_taken_with_return] puts [Void] in the place of
    the site while the builder runs, which is what a panic would leave. *)
Definition erect (d : draws) (c : site) : site * res erect_err unit :=
  match c with
  | Void => (Void, Err IsVoid)
  | Product s => (Product s, Err AlreadyBuilt)
  | Building b =>
      match build d b with
      | Ok s => (Product s, Ok tt)
      | Err e => (Void, Err (Other e))
      | Panic => (Void, Panic)
      end
  end.

(** app_server.rs 1051-1058: what adding a peer fails with *)
Inductive site_err := SiteVoid | SiteCrypto (e : err).

(** rosenpass/src/app_server.rs:1051-1059: the part of [AppServer::add_peer] that concerns
    the protocol engine. *)
Definition site_add_peer (p : peer_params) (c : site) : site * res site_err nat :=
  match c with
  | Void => (Void, Err SiteVoid)
  | Building b => let (b', n) := builder_add_peer p b in (Building b', Ok n)
  | Product s =>
      match add_peer P (pp_psk p) (pp_pk p) (pp_alg p) (pp_ds p) s with
      | (s', Ok n) => (Product s', Ok n)
      | (s', Err e) => (Product s', Err (SiteCrypto e))
      | (s', Panic) => (Product s', Panic)
      end
  end.

(** Sizes of static keys: cipher-traits/src/algorithms.rs:114-117 (Classic McEliece 460896). *)
Definition SK_LEN : N := 13608.
Definition PK_LEN : N := 524160.

(** What a file descriptor received with a request gives when it is read from: its remaining
    contents, or an I/O error.  Simplification: the error comes before any data.  No code in /repo: the system behind api_handler.rs 139-190. *)
Definition file := option bytes.

(** util/src/io.rs:526-533 [read_exact_til_end]: all of the buffer is filled and the stream
    ends there. *)
Definition read_exact_til_end (n : N) (f : file) : option bytes :=
  match f with
  | None => None
  | Some l => if (N.of_nat (length l) <? n)%N then None     (* read_exact *)
              else if negb (N.of_nat (length l) =? n)%N then None  (* longer than the buffer *)
              else Some l
  end.

(** rosenpass/src/api/boilerplate/payload.rs:155-168 *)
Definition SK_OK : N := 0.
Definition SK_ALREADY_SUPPLIED : N := 1.
Definition SK_INVALID_REQUEST : N := 3.

(** rosenpass/src/api/api_handler.rs:139-231 [supply_keypair]: the status written to the
    response; [Err] is the error passed on to the connection, without a response. *)
Inductive supply_err := SupplyVoid | SupplyErect (e : erect_err).
Definition supply_keypair (d : draws) (fds : list file) (c : site) : site * res supply_err N :=
  match nth_error fds 0 with
  | None => (c, Ok SK_INVALID_REQUEST)
  | Some f0 =>
      match nth_error fds 1 with
      | None => (c, Ok SK_INVALID_REQUEST)
      | Some f1 =>
          match read_exact_til_end SK_LEN f0 with
          | None => (c, Ok SK_INVALID_REQUEST)
          | Some sk =>
              match read_exact_til_end PK_LEN f1 with
              | None => (c, Ok SK_INVALID_REQUEST)
              | Some pk =>
                  match c with
                  | Void => (c, Err SupplyVoid)
                  | Product _ => (c, Ok SK_ALREADY_SUPPLIED)
                  | Building b =>
                      match erect d (Building {| b_keypair := Some (sk, pk); b_peers := b_peers b |}) with
                      | (c', Ok tt) => (c', Ok SK_OK)
                      | (c', Err e) => (c', Err (SupplyErect e))
                      | (c', Panic) => (c', Panic)
                      end
                  end
              end
          end
      end
  end.

(** * Histories of a construction site *)

(** What the application does with the site: add a peer, handle a [supply_keypair] request,
    or call the engine if there is one.  app_server.rs 1041-1059, api_handler.rs 139-231, app_server.rs 1160-1237 *)
Inductive site_op :=
| SAdd (p : peer_params)
| SSupply (d : draws) (fds : list file)
| SCall (c : call).

(** What these return *)
Inductive site_out :=
| SAdded (r : res site_err nat)
| SSupplied (r : res supply_err N)
| SCalled (r : option (res err outcome)).

(** rosenpass/src/app_server.rs:1119-1239: the engine is called only if the site is a product. *)
Definition site_exec (o : site_op) (c : site) : site * site_out :=
  match o with
  | SAdd p => let (c', r) := site_add_peer p c in (c', SAdded r)
  | SSupply d fds => let (c', r) := supply_keypair d fds c in (c', SSupplied r)
  | SCall x =>
      match c with
      | Product s => let (s', r) := exec P x s in (Product s', SCalled (Some r))
      | _ => (c, SCalled None)
      end
  end.

(** No code in /repo: the assumption for one step. *)
Definition site_valid (o : site_op) (c : site) : Prop :=
  match o, c with
  | SCall x, Product s => valid x s
  | _, _ => True
  end.

(** No code in /repo: histories. *)
Inductive site_run : site -> list (site_op * site_out) -> site -> Prop :=
| sr_nil c : site_run c [] c
| sr_cons c o c1 r h c2 :
    site_valid o c -> site_exec o c = (c1, r) -> site_run c1 h c2 -> site_run c ((o, r) :: h) c2.

End WithPrims.
