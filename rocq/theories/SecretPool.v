(** Secrets and the pool their memory comes from: secret-memory/src/secret.rs, to which line numbers refer.

    Memory is made of blocks that do not overlap, named by numbers.  [p_mem] tells what is in a block that is or has been the
    storage of a secret; a block that is given back to the allocator keeps its contents until it is used again.  The
    allocator hands out any block that is not in use; running out of memory is not modelled. *)
From Verif Require Import Base Lpe.

(** secret.rs 189-191 [Secret<N>]: its size and the block of its storage *)
Record secret := { s_size : nat; s_block : nat }.

(** [p_heap]: the blocks in use; [p_pool]: the pools of all threads (secret.rs 25-27, 118-121), each entry with its thread, size and
    block, the entry pushed last in front; [p_live]: the secrets that exist, by the order of their creation. *)
Record pool_state := {
  p_mem : nat -> option bytes;
  p_heap : list nat;
  p_pool : list (nat * nat * nat);
  p_live : nat -> option secret;
  p_next : nat
}.
Definition pool_init : pool_state :=
  {| p_mem := fun _ => None; p_heap := []; p_pool := []; p_live := fun _ => None; p_next := 0 |}.

(** No code in /repo: one value of a function is changed. *)
Definition set_fn {A} (f : nat -> A) (k : nat) (v : A) : nat -> A := fun i => if Nat.eqb i k then v else f i.

(** [zeroize] of a block  secret.rs 79-84, 243-246; of the crate zeroize *)
Definition wipe (b : nat) (s : pool_state) : pool_state :=
  {| p_mem := set_fn (p_mem s) b (option_map (fun d => zeros (length d)) (p_mem s b));
     p_heap := p_heap s; p_pool := p_pool s; p_live := p_live s; p_next := p_next s |}.
(** A write to a block  secret.rs 105-110, 234-236 *)
Definition store (b : nat) (d : bytes) (s : pool_state) : pool_state :=
  {| p_mem := set_fn (p_mem s) b (Some d); p_heap := p_heap s; p_pool := p_pool s; p_live := p_live s; p_next := p_next s |}.

(** secret.rs 57-59 [ZeroizingSecretBox::new([0u8; N])], 154 [secret_box([0u8; N])]: a new block of zeros.
    [hint] is the choice of the allocator, which is free among the blocks not in use. *)
Definition pick (hint : nat) (heap : list nat) : nat :=
  if existsb (Nat.eqb hint) heap then S (list_max heap) else hint.
Definition box_new (hint n : nat) (s : pool_state) : pool_state * nat :=
  let b := pick hint (p_heap s) in
  ({| p_mem := set_fn (p_mem s) b (Some (zeros n)); p_heap := b :: p_heap s; p_pool := p_pool s;
      p_live := p_live s; p_next := p_next s |}, b).
(** secret.rs 91-93 [ZeroizingSecretBox::drop], then the block goes back to the allocator. *)
Definition box_drop (b : nat) (s : pool_state) : pool_state :=
  let s := wipe b s in
  {| p_mem := p_mem s; p_heap := filter (fun x => negb (Nat.eqb x b)) (p_heap s); p_pool := p_pool s;
     p_live := p_live s; p_next := p_next s |}.

(** secret.rs 133-145 [SecretMemoryPool::release] in the pool of thread [t] *)
Definition pool_release (t n b : nat) (s : pool_state) : pool_state :=
  let s := wipe b s in
  {| p_mem := p_mem s; p_heap := p_heap s; p_pool := (t, n, b) :: p_pool s; p_live := p_live s; p_next := p_next s |}.

(** [entry.pop()]  secret.rs 151-166 *)
Fixpoint pop (t n : nat) (l : list (nat * nat * nat)) : option (nat * list (nat * nat * nat)) :=
  match l with
  | [] => None
  | (t', n', b) :: l =>
      if Nat.eqb t t' && Nat.eqb n n' then Some (b, l)
      else match pop t n l with None => None | Some (b', l') => Some (b', (t', n', b) :: l') end
  end.
(** secret.rs 151-158 [SecretMemoryPool::take]; the conversion at 155 fails unless the block has [n] bytes, and is unwrapped: [None]. *)
Definition pool_take (t hint n : nat) (s : pool_state) : pool_state * option nat :=
  match pop t n (p_pool s) with
  | None => let (s, b) := box_new hint n s in (s, Some b)
  | Some (b, l) =>
      ({| p_mem := p_mem s; p_heap := p_heap s; p_pool := l; p_live := p_live s; p_next := p_next s |},
       match p_mem s b with
       | Some d => if Nat.eqb (length d) n then Some b else None
       | None => None
       end)
  end.

(** Where and how a call runs: its thread, whether the pool of that thread can be borrowed (secret.rs 30-48; not while the thread
    ends, for example), and the choice of the allocator. *)
Record place := { at_thread : nat; at_pool : bool; at_hint : nat }.

(** A new secret that is bound to a name of the program.  secret.rs 189-217 *)
Definition bind_secret (x : secret) (s : pool_state) : pool_state * nat :=
  ({| p_mem := p_mem s; p_heap := p_heap s; p_pool := p_pool s;
      p_live := set_fn (p_live s) (p_next s) (Some x); p_next := S (p_next s) |}, p_next s).

(** secret.rs 202-211 [Secret::zero], not yet bound *)
Definition secret_zero (w : place) (n : nat) (s : pool_state) : pool_state * option secret :=
  let (s, r) := if at_pool w then pool_take (at_thread w) (at_hint w) n s
                else let (s, b) := box_new (at_hint w) n s in (s, Some b) in
  (s, option_map (fun b => {| s_size := n; s_block := b |}) r).

(** secret.rs 258-268 [Secret::drop]: [self.storage.take()] is evaluated in any case, so without a pool the box is dropped. *)
Definition secret_drop (w : place) (x : secret) (s : pool_state) : pool_state :=
  if at_pool w then pool_release (at_thread w) (s_size x) (s_block x) s else box_drop (s_block x) s.

(** What can be done with secrets.  secret.rs 133-275, by the places at which the memory of a secret changes *)
Inductive pool_op :=
| PZero (w : place) (n : nat)
| PFromSlice (w w' : place) (n : nat) (d : bytes)
| PRandom (w : place) (n : nat) (draw : bytes)
| PWrite (h off : nat) (d : bytes)
| PZeroize (h : nat)
| PRandomize (h : nat) (draw : bytes)
| PClone (w w' : place) (h : nat)
| PDrop (w : place) (h : nat)
| PThreadEnd (t : nat).

(** What these return *)
Inductive pool_res := RNew (h : nat) | RDone | RPanic | RGone.

(** The first [n] bytes a random number generator gives.  secret.rs 220-226 *)
Definition drawn (n : nat) (draw : bytes) : bytes := firstn n (draw ++ zeros n).

(** secret.rs 195-199 [from_slice]: [copy_from_slice] panics if the sizes differ, and then the new secret is dropped, in [w']. *)
Definition secret_from_slice (w w' : place) (n : nat) (d : bytes) (s : pool_state) : pool_state * pool_res :=
  match secret_zero w n s with
  | (s, None) => (s, RPanic)
  | (s, Some x) =>
      if Nat.eqb (length d) n
      then let (s, h) := bind_secret x (store (s_block x) d s) in (s, RNew h)
      else (secret_drop w' x s, RPanic)
  end.

(** secret.rs 220-226 [randomize] *)
Definition secret_randomize (x : secret) (draw : bytes) (s : pool_state) : pool_state :=
  store (s_block x) (drawn (s_size x) draw) (wipe (s_block x) s).

(** secret.rs 229-236 [secret], [secret_mut]: the contents *)
Definition contents (x : secret) (s : pool_state) : bytes :=
  match p_mem s (s_block x) with Some d => d | None => [] end.

(** A write through [secret_mut]; out of bounds panics.  secret.rs 234-236 *)
Definition secret_write (x : secret) (off : nat) (d : bytes) (s : pool_state) : pool_state * pool_res :=
  if off + length d <=? s_size x then (store (s_block x) (splice off d (contents x s)) s, RDone) else (s, RPanic).

(** The end of a thread drops its pool.  std drops [thread_local] values, secret.rs 25-48 *)
Fixpoint drop_boxes (l : list nat) (s : pool_state) : pool_state :=
  match l with [] => s | b :: l => drop_boxes l (box_drop b s) end.
(** secret.rs 25-48: the pool is a [thread_local] *)
Definition thread_end (t : nat) (s : pool_state) : pool_state :=
  let own := filter (fun e => Nat.eqb (fst (fst e)) t) (p_pool s) in
  let rest := filter (fun e => negb (Nat.eqb (fst (fst e)) t)) (p_pool s) in
  drop_boxes (map snd own)
    {| p_mem := p_mem s; p_heap := p_heap s; p_pool := rest; p_live := p_live s; p_next := p_next s |}.

(** No code in /repo: one step of a history. *)
Definition pool_step (o : pool_op) (s : pool_state) : pool_state * pool_res :=
  match o with
  | PZero w n =>
      match secret_zero w n s with
      | (s, Some x) => let (s, h) := bind_secret x s in (s, RNew h)
      | (s, None) => (s, RPanic)
      end
  | PFromSlice w w' n d => secret_from_slice w w' n d s
  | PRandom w n draw => (* 214-216 *)
      match secret_zero w n s with
      | (s, Some x) => let (s, h) := bind_secret x (secret_randomize x draw s) in (s, RNew h)
      | (s, None) => (s, RPanic)
      end
  | PWrite h off d =>
      match p_live s h with None => (s, RGone) | Some x => secret_write x off d s end
  | PZeroize h => (* 243-247 *)
      match p_live s h with None => (s, RGone) | Some x => (wipe (s_block x) s, RDone) end
  | PRandomize h draw =>
      match p_live s h with None => (s, RGone) | Some x => (secret_randomize x draw s, RDone) end
  | PClone w w' h => (* 272-274 *)
      match p_live s h with
      | None => (s, RGone)
      | Some x => secret_from_slice w w' (s_size x) (contents x s) s
      end
  | PDrop w h =>
      match p_live s h with
      | None => (s, RGone)
      | Some x =>
          let s := secret_drop w x s in
          ({| p_mem := p_mem s; p_heap := p_heap s; p_pool := p_pool s; p_live := set_fn (p_live s) h None;
              p_next := p_next s |}, RDone)
      end
  | PThreadEnd t => (thread_end t s, RDone)
  end.

(** No code in /repo: histories. *)
Fixpoint pool_steps (l : list pool_op) (s : pool_state) : pool_state * list pool_res :=
  match l with
  | [] => (s, [])
  | o :: l => let (s, r) := pool_step o s in let (s, rs) := pool_steps l s in (s, r :: rs)
  end.
