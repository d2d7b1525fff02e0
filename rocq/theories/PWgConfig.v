(** C103: what the configuration says about WireGuard is what `wg` is told *)
From Coq Require Import Strings.String.
From Verif Require Import Base Wire Lpe PLpe Broker PBroker Files PFiles Config Rp WgConfig.
Local Open Scope string_scope.
Local Open Scope list_scope.

(** * Numbers and strings in postcard's format *)

Lemma varint_round f : forall n rest, (n < 128 ^ N.of_nat f * 2)%N -> take_varint (S f) (varint (S f) n ++ rest) = Some (n, rest).
Proof.
  induction f as [|f IH]; intros n rest L.
  - cbn [varint take_varint]. change (128 ^ N.of_nat 0 * 2)%N with 2%N in L.
    destruct (N.ltb_spec n 128); [|lia]. cbn [List.app]. rewrite b2n_n2b, N.mod_small by lia.
    destruct (N.ltb_spec n 128); [|lia]. cbn [Nat.eqb andb]. destruct (N.ltb_spec 1 n); [lia|reflexivity].
  - rewrite Nat2N.inj_succ, N.pow_succ_r' in L. remember (Datatypes.S f) as g. cbn [varint]. destruct (N.ltb_spec n 128) as [S|S]; cbn [List.app take_varint].
    + rewrite b2n_n2b, N.mod_small by lia. destruct (N.ltb_spec n 128); [|lia]. subst g. reflexivity.
    + pose proof (N.mod_lt n 128 ltac:(discriminate)) as M. pose proof (N.div_mod n 128 ltac:(discriminate)) as D.
      rewrite b2n_n2b, (N.mod_small (n mod 128 + 128) 256) by lia. destruct (N.ltb_spec (n mod 128 + 128) 128). { clear - H. exfalso. generalize dependent (n mod 128)%N. intros r. lia. } rewrite IH.
      * f_equal. f_equal. clear - D. remember (n mod 128)%N as r. remember (n / 128)%N as q. lia.
      * apply N.div_lt_upper_bound; [discriminate|]. lia.
Qed.
(** A [usize] *)
Definition fits (n : nat) : Prop := (N.of_nat n < 2 ^ 64)%N.
Lemma varint_usize n rest : fits n -> take_varint VARINT_MAX (varint VARINT_MAX (N.of_nat n) ++ rest) = Some (N.of_nat n, rest).
Proof. intros L. unfold VARINT_MAX. apply varint_round. exact L. Qed.
Lemma varint_nonempty n : exists b r, varint VARINT_MAX n = b :: r.
Proof. unfold VARINT_MAX. cbn [varint]. destruct (N.ltb n 128); eauto. Qed.

Section Utf8.
Context (utf8 : bytes -> bool).
(** A Rust string: text, no longer than memory *)
Definition rust_string (s : bytes) : Prop := utf8 s = true /\ fits (length s).
Lemma string_round s rest : rust_string s -> take_string utf8 (enc_string s ++ rest) = Some (s, rest).
Proof.
  intros [U F]. unfold take_string, enc_string. rewrite <- app_assoc, varint_usize by exact F.
  rewrite app_length. destruct (N.leb_spec (N.of_nat (length s)) (N.of_nat (length s + length rest))); [|lia].
  rewrite Nat2N.id, firstn_app, firstn_all, Nat.sub_diag, firstn_O, app_nil_r, U.
  rewrite skipn_app, skipn_all, Nat.sub_diag. reflexivity.
Qed.
Lemma strings_round l rest : Forall rust_string l -> take_strings utf8 (length l) (flat_map enc_string l ++ rest) = Some l.
Proof.
  intros F. revert rest. induction F as [|s l Hs F IH]; intros rest; cbn [length take_strings flat_map]; [reflexivity|].
  rewrite <- app_assoc, string_round by exact Hs. now rewrite IH.
Qed.
Lemma strings_long l : length l <= length (flat_map enc_string l).
Proof.
  induction l as [|s l IH]; cbn [length flat_map]; [lia|]. rewrite app_length. unfold enc_string at 1. rewrite app_length.
  destruct (varint_nonempty (N.of_nat (length s))) as (b & r & ->). cbn [length]. lia.
Qed.

(** C103: every list of strings is read back as it was, whatever follows it *)
Theorem C103_parameters_kept : forall l rest, Forall rust_string l -> fits (length l) -> from_bytes utf8 (to_allocvec l ++ rest) = Some l.
Proof.
  intros l rest F L. unfold from_bytes, to_allocvec. rewrite <- app_assoc, varint_usize by exact L.
  rewrite app_length. pose proof (strings_long l). destruct (N.leb_spec (N.of_nat (length l)) (N.of_nat (length (flat_map enc_string l) + length rest))); [|lia].
  rewrite Nat2N.id. now apply strings_round.
Qed.
(** C103: different lists of parameters are never confused with each other *)
Theorem C103_parameters_distinct : forall l l' rest rest', Forall rust_string l -> fits (length l) -> Forall rust_string l' -> fits (length l') ->
  to_allocvec l ++ rest = to_allocvec l' ++ rest' -> l = l'.
Proof.
  intros l l' rest rest' F L F' L' E. pose proof (C103_parameters_kept l rest F L) as A. rewrite E, C103_parameters_kept in A by assumption. congruence.
Qed.

(** * From the configuration to `wg` *)
Context (junk : bytes -> bytes -> option bytes).

Lemma str_back s : string_of_list_byte (str s) = s.
Proof. apply string_of_list_byte_of_string. Qed.
Lemma strs_back l : map string_of_list_byte (map str l) = l.
Proof. rewrite map_map. rewrite <- (map_id l) at 2. apply map_ext. apply str_back. Qed.

(** What is in a configuration file or on a command line: text *)
Definition texts (w : wireguard) : Prop :=
  utf8 (str (wg_device w)) = true /\ Forall rust_string (map str (wg_extra w)) /\ fits (length (wg_extra w)).
(** The text of a WireGuard key: the Base64 of 32 bytes *)
Definition wg_key_text (t : string) (k : bytes) : Prop := length k = 32 /\ str t = b64_text k.

Lemma base_of w k : wg_key_text (wg_peer w) k ->
  wg_base_of junk w = Some {| b_interface := str (wg_device w); b_peer_id := k; b_extra := to_allocvec (map str (wg_extra w)) |}.
Proof.
  intros [L E]. unfold wg_base_of. rewrite E, b64_decode_text by (intros ->; discriminate L). rewrite L, zeros_length.
  cbn [WG_PEER_LEN Nat.leb]. rewrite skipn_all2 by (rewrite zeros_length; reflexivity). now rewrite app_nil_r.
Qed.
Lemma native_of w b psk : texts w -> wg_base_of junk w = Some b -> length psk = 32 ->
  length (b_peer_id b) = 32 ->
  native_call utf8 (create_config b psk) =
    Some {| wc_argv := ["wg"; "set"; wg_device w; "peer"; string_of_list_byte (b64_text (b_peer_id b)); "preshared-key"; "/dev/stdin"] ++ wg_extra w;
            wc_stdin := b64_text psk |}.
Proof.
  intros (U & F & L) E Lp Li. unfold wg_base_of in E. destruct (b64_decode junk (str (wg_peer w)) (zeros WG_PEER_LEN)) as [id|]; [|discriminate].
  assert (b = {| b_interface := str (wg_device w); b_peer_id := id; b_extra := to_allocvec (map str (wg_extra w)) |}) by congruence. subst b.
  unfold native_call, create_config. cbn [g_iface g_peer g_psk g_extra b_interface b_peer_id b_extra] in *. rewrite U.
  rewrite <- (app_nil_r (to_allocvec _)), C103_parameters_kept by (try rewrite map_length; assumption).
  unfold wg_set, b64_encode. rewrite !b64_text_length, Li, Lp. change (Nat.leb (4 * ((32 + 2) / 3)) MAX_B64_KEY_SIZE) with true. cbn iota.
  now rewrite str_back, strs_back.
Qed.

(** C103: for a peer that is named by the text of a WireGuard key, `wg` is told the device, that text and the further parameters as they are
    in the configuration, in their order, and gets the key on its standard input.  Partial: other texts are accepted as well, see
    [C103_short_peer_refuted] *)
Theorem C103_told_partial : forall w k psk, texts w -> wg_key_text (wg_peer w) k -> length psk = 32 ->
  exists b, wg_base_of junk w = Some b /\
    native_call utf8 (create_config b psk) =
      Some {| wc_argv := ["wg"; "set"; wg_device w; "peer"; wg_peer w; "preshared-key"; "/dev/stdin"] ++ wg_extra w; wc_stdin := b64_text psk |}.
Proof.
  intros w k psk T K Lp. eexists. split; [exact (base_of w k K)|]. pose proof K as [L E].
  rewrite (native_of w _ psk T (base_of w k K) Lp L). cbn [b_peer_id]. now rewrite <- E, str_back.
Qed.

(** C103: with a broker behind a socket, device, peer and key are the ones of the configuration, and its answer is understood.  Partial: the
    further parameters are lost on the way, as [network_config] has none; see also [C38_extra_lost_refuted] *)
Theorem C103_network_partial : forall (S E : Type) (inner : bconfig -> S -> S * option E) (conv : E -> psk_err) w k psk s,
  texts w -> wg_key_text (wg_peer w) k -> length psk = 32 -> length (str (wg_device w)) < 256 ->
  exists b m res, wg_base_of junk w = Some b /\ set_psk_request (E := unit) utf8 (create_config b psk) = Ok m /\
    handle_message utf8 inner conv m (zeros 5) s =
      (fst (inner (network_config (str (wg_device w)) k psk) s), res, Some 5) /\
    read_response res = Some (option_map conv (snd (inner (network_config (str (wg_device w)) k psk) s))).
Proof.
  intros S E inner conv w k psk s (U & F & L) K Lp Ld. pose proof (base_of w k K) as B. pose proof K as [Lk _].
  set (b := {| b_interface := str (wg_device w); b_peer_id := k; b_extra := to_allocvec (map str (wg_extra w)) |}) in B.
  assert (Ty : typed (create_config b psk)) by (split; assumption).
  assert (R : set_psk_request (E := unit) utf8 (create_config b psk) = Ok (wire (create_config b psk))).
  { rewrite request_ok by exact Ty. cbn [create_config g_iface b_interface b]. rewrite U. destruct (Nat.ltb_spec (length (str (wg_device w))) 256); [reflexivity|lia]. }
  destruct (C38_unchanged utf8 inner conv unit _ _ s Ty R) as (res & H & _ & Rr).
  exists b, (wire (create_config b psk)), res. split; [exact B|]. split; [exact R|]. split; [exact H|exact Rr].
Qed.

(** C103, refuted: a text for fewer than 32 bytes is no WireGuard key, but is accepted; `wg` is told another peer than the configuration names *)
Theorem C103_short_peer_refuted : forall w d psk, texts w -> d <> [] -> length d < 32 -> str (wg_peer w) = b64_text d -> length psk = 32 ->
  exists b, wg_base_of junk w = Some b /\
    native_call utf8 (create_config b psk) =
      Some {| wc_argv := ["wg"; "set"; wg_device w; "peer"; string_of_list_byte (b64_text (d ++ zeros (32 - length d))); "preshared-key"; "/dev/stdin"] ++ wg_extra w;
              wc_stdin := b64_text psk |} /\
    string_of_list_byte (b64_text (d ++ zeros (32 - length d))) <> wg_peer w.
Proof.
  intros w d psk T D L E Lp.
  assert (B : wg_base_of junk w = Some {| b_interface := str (wg_device w); b_peer_id := d ++ zeros (32 - length d); b_extra := to_allocvec (map str (wg_extra w)) |}).
  { unfold wg_base_of. rewrite E, b64_decode_text by exact D. rewrite zeros_length. destruct (Nat.leb_spec (length d) WG_PEER_LEN); [|unfold WG_PEER_LEN in *; lia].
    do 3 f_equal. replace WG_PEER_LEN with (length d + (32 - length d)) by (unfold WG_PEER_LEN; lia).
    rewrite <- zeros_app, skipn_app, skipn_all2 by (rewrite zeros_length; lia). rewrite zeros_length, Nat.sub_diag. reflexivity. }
  eexists. split; [exact B|]. split.
  - rewrite (native_of w _ psk T B Lp); [reflexivity|]. cbn [b_peer_id]. rewrite app_length, zeros_length. lia.
  - intros X. apply (f_equal str) in X. unfold str at 1 in X. rewrite list_byte_of_string_of_list_byte, E in X.
    apply (f_equal b64_data) in X. rewrite !b64_data_text in X.
    assert (d ++ zeros (32 - length d) = d) as Y by congruence. apply (f_equal (@length byte)) in Y. rewrite app_length, zeros_length in Y. lia.
Qed.

(** C103: a text for more than 32 bytes, or none at all, is refused when rosenpass starts *)
Theorem C103_refused : forall w, wg_peer w = ""%string \/ (exists d, str (wg_peer w) = b64_text d /\ 32 < length d) -> wg_base_of junk w = None.
Proof.
  intros w [E|(d & E & L)]; unfold wg_base_of.
  - rewrite E. reflexivity.
  - rewrite E, b64_decode_text by (intros ->; cbn [length] in L; lia). rewrite zeros_length.
    destruct (Nat.leb_spec (length d) WG_PEER_LEN); [unfold WG_PEER_LEN in *; lia|reflexivity].
Qed.

(** C103: the result is the peer that Config.v gives to the server *)
Theorem C103_as_started : forall rand f p s w, start_peer junk rand f p = Some s -> p_wg p = Some w ->
  exists b, wg_base_of junk w = Some b /\ s_wg s = Some (wg_device w, b_peer_id b, wg_extra w).
Proof.
  intros rand f p s w E P. unfold start_peer in E. rewrite P in E. unfold wg_base_of.
  change (list_byte_of_string (wg_peer w)) with (str (wg_peer w)) in E. change (zeros 32) with (zeros WG_PEER_LEN) in E.
  destruct (b64_decode junk (str (wg_peer w)) (zeros WG_PEER_LEN)) as [id|]; [|discriminate E].
  eexists. split; [reflexivity|]. cbn [b_peer_id].
  destruct (match p_psk p with Some q => _ | None => _ end) as [psk|]; [|discriminate E].
  destruct (load SPK_LEN (p_public p) f) as [pk|]; [|discriminate E]. destruct (osk_ok p); [|discriminate E].
  match type of E with Some ?x = Some ?y => assert (X : x = y) by congruence end. rewrite <- X. reflexivity.
Qed.

(** C103, refuted: a configuration built for brokers in general is refused by the broker that calls `wg`, for every device, peer and key.
    The documentation of the crate (lib.rs 22-33) makes such a call *)
Theorem C103_network_config_refuted : forall iface peer psk, native_call utf8 (network_config iface peer psk) = None.
Proof. intros. unfold native_call, network_config. cbn [g_iface g_extra]. destruct (utf8 iface); reflexivity. Qed.
End Utf8.
Print Assumptions C103_parameters_kept.
Print Assumptions C103_parameters_distinct.
Print Assumptions C103_told_partial.
Print Assumptions C103_network_partial.
Print Assumptions C103_short_peer_refuted.
Print Assumptions C103_refused.
Print Assumptions C103_as_started.
Print Assumptions C103_network_config_refuted.

(** A peer with parameters, one of them long, and one that a space must not split *)
Definition demo_wg : wireguard :=
  {| wg_device := "wg0"; wg_peer := "QkJCQkJCQkJCQkJCQkJCQkJCQkJCQkJCQkJCQkJCQkI="; wg_extra := ["allowed-ips"; "10.0.0.0/8, fe80::/64"; ""] |}%string.
Example C103_texts : texts (fun _ => true) demo_wg /\ wg_key_text (wg_peer demo_wg) (repeat x42 32).
Proof.
  split; [|split; reflexivity]. split; [reflexivity|]. split; [|reflexivity].
  repeat (constructor; [split; reflexivity|]). constructor.
Qed.
Example C103_demo : to_allocvec (map str ["a"; "bc"]%string) = map n2b [2; 1; 97; 2; 98; 99]%N /\
  from_bytes (fun _ => true) (varint 10 1 ++ varint 10 200 ++ repeat x41 200) = Some [repeat x41 200] /\
  from_bytes (fun _ => true) (varint 10 1 ++ varint 10 200 ++ repeat x41 199) = None.
Proof. repeat split; vm_compute; reflexivity. Qed.
