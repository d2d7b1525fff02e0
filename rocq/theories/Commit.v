(** A configuration that is put together by a program, written back to its file and read again: rosenpass/src/config.rs 302-329 and 455-518. *)
From Coq Require Import Strings.Ascii Strings.String.
From Verif Require Import Base Files Config Rp TomlConfig.
Local Open Scope string_scope.
Local Open Scope list_scope.

Section Commit.
Context {A : Type}.
(** The socket addresses 0.0.0.0 and [::] with a port.  No code in /repo: std::net, used at config.rs 509-515. *)
Context (v4_any v6_any : N -> A).

(** config.rs 462-464 [empty] *)
Definition config_empty : config A := new_config None.
(** config.rs 475-477 [from_sk_pk], 91-99 [Keypair::new] *)
Definition keypair_new (public_key secret_key : path) : keypair := {| k_public := public_key; k_secret := secret_key |}.
Definition from_sk_pk (sk pk : path) : config A := new_config (Some (keypair_new pk sk)).
(** config.rs 508-518 [add_if_any] *)
Definition add_if_any (port : N) (c : config A) : config A := with_listen c (c_listen c ++ [v4_any port] ++ [v6_any port]).

(** What toml makes of the settings; nothing if a path is not text.  No code in /repo: toml::to_string_pretty, used at config.rs 311, 325. *)
Context (print : table -> option bytes) (show_addr : A -> string) (api : bool) (umask : N).

(** config.rs 309-314 [store] *)
Definition store_config (w : wplan) (c : config A) (a : api_config) (p : path) (f : fs) : fs * res unit unit :=
  match print (ser_config show_addr api c a) with
  | None => (f, Panic)
  | Some d =>
      if String.eqb p "" then (f, Err tt)
      else let (f, ok) := write_file umask M_DEFAULT w p d f in (f, if ok then Ok tt else Err tt)
  end.
(** config.rs 323-328 [commit]: opening the file empties it, before the text is made.  There is no file with an empty name. *)
Definition commit (w1 w2 : wplan) (c : config A) (a : api_config) (f : fs) : fs * res unit unit :=
  if String.eqb (c_path c) "" then (f, Err tt)
  else match print (ser_config show_addr api c a) with
       | None => (fst (write_file umask M_PUBLIC (match w1 with WNoOpen => WNoOpen | _ => WStops 0 end) (c_path c) [] f), Err tt)
       | Some d =>
           let (f, ok) := write_file umask M_PUBLIC w1 (c_path c) d f in
           if ok then store_config w2 c a (c_path c) f else (f, Err tt)
       end.
End Commit.
