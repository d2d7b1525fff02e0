(** Model of rosenpass/src/hash_domains.rs and ciphers/src/hash_domain.rs. *)
From Verif Require Import Base Prims.
From Coq Require Import Strings.String.
Local Open Scope string_scope.
Local Open Scope list_scope.

Section Domains.
Context (P : prims).

(** ciphers/src/hash_domain.rs:80-84, 130-134, 152-163: every [mix] is one keyed hash
    with the current value as key.  The public and the secret hash domain
    types only differ in memory handling and are identified.  hash_domain.rs 65-73, 116-123, 136-143, 166-192, 236-243, 252-275: copies and conversions between the types are the identity, the others are this function. *)
Definition hmix (a : halg) (k d : bytes) : bytes := khash P a k d.

(** A hash domain is reached from the all-zero key ([HashDomain::zero],
    hash_domain.rs:60-62) by mixing labels one after the other.  hash_domain.rs 102-111, 220-229 [mix_many] *)
Definition hpath (a : halg) (k : bytes) (labels : list bytes) : bytes :=
  fold_left (hmix a) labels k.

(** rosenpass/src/hash_domains.rs:111-119 [protocol]. *)
Definition protocol_label (a : halg) : bytes :=
  match a with
  | Shake => str "Rosenpass v1 mceliece460896 Kyber512 ChaChaPoly1305 SHAKE256"
  | Blake => str "Rosenpass v1 mceliece460896 Kyber512 ChaChaPoly1305 BLAKE2s"
  end.
Definition d_protocol (a : halg) : bytes := hpath a (zeros 32) [protocol_label a].

(** hash_domains.rs:121-324, the [hash_domain_ns!] and [hash_domain!] uses. *)
Definition d_mac a := hmix a (d_protocol a) (str "mac").
Definition d_cookie a := hmix a (d_protocol a) (str "cookie").
Definition d_cookie_value a := hmix a (d_protocol a) (str "cookie-value").
Definition d_cookie_key a := hmix a (d_protocol a) (str "cookie-key").
Definition d_peerid a := hmix a (d_protocol a) (str "peer id").
Definition d_biscuit_ad a := hmix a (d_protocol a) (str "biscuit additional data").
Definition d_ckinit a := hmix a (d_protocol a) (str "chaining key init").
Definition d_ckextract a := hmix a (d_protocol a) (str "chaining key extract").
Definition d_mix a := hmix a (d_ckextract a) (str "mix").
Definition d_hs_enc a := hmix a (d_ckextract a) (str "handshake encryption").
Definition d_ini_enc a := hmix a (d_ckextract a) (str "initiator handshake encryption").
Definition d_res_enc a := hmix a (d_ckextract a) (str "responder handshake encryption").
Definition d_user a := hmix a (d_ckextract a) (str "user").
Definition d_user_rosenpass a := hmix a (d_user a) (str "rosenpass.eu").
Definition d_wireguard_psk a := hmix a (d_user_rosenpass a) (str "wireguard psk").

(** rosenpass/src/protocol/osk_domain_separator.rs:29-42 [OskDomainSeparator].  osk_domain_separator.rs 46-77 are its constructors. *)
Inductive osk_ds :=
| ExtensionWireguardPsk
| Custom (namespace : bytes) (labels : list bytes).

(** osk_domain_separator.rs:80-90 [compress_with]; [mix_many] is
    hash_domain.rs:102-111. *)
Definition ds_compress (a : halg) (d : osk_ds) : bytes :=
  match d with
  | ExtensionWireguardPsk => d_wireguard_psk a
  | Custom ns labels => hpath a (hmix a (d_user a) ns) labels
  end.

(** protocol.rs:1217-1222 [pidm] and 1511-1516 [pidt]: the peer id of a static public key. *)
Definition peer_id (a : halg) (pk : bytes) : bytes := hmix a (d_peerid a) pk.

End Domains.
Arguments ExtensionWireguardPsk : clear implicits.
