(** Where the memory of secrets comes from: secret-memory/src/policy.rs, alloc/mod.rs, alloc/memsec/malloc.rs and
    alloc/memsec/memfdsec.rs.  What is in the memory is in SecretPool.v.

    The library memsec is outside of the repository: it answers a request with an address or with nothing, and its two
    families keep account of the blocks they have given out.  To give back a block that the family has not given out is
    undefined; the model notes it in [a_wild]. *)
From Verif Require Import Base.

(** alloc/mod.rs 69-73 [SecretAllocType] *)
Inductive atype := Malloc | Memfd.
Definition atype_eqb (a b : atype) : bool := match a, b with Malloc, Malloc | Memfd, Memfd => true | _, _ => false end.

(** A box: alloc/mod.rs 76-78, 117 [SecretBox], with the [SecretAlloc] in it, or malloc.rs 24 [MallocBox] and
    memfdsec.rs 25 [MemfdSecBox], whose type tells the family *)
Record abox := { x_secret : bool; x_type : atype; x_addr : N; x_align : N }.
(** alloc/mod.rs 22 [ALLOC_TYPE], the accounts of memsec and the boxes that exist *)
Record astate := { a_type : option atype; a_given : list (atype * N); a_boxes : list abox; a_wild : bool }.
Definition a_init : astate := {| a_type := None; a_given := []; a_boxes := []; a_wild := false |}.

(** alloc/mod.rs 22, 41-44, 64-67: assignment to the [OnceLock] *)
Definition with_type (t : option atype) (s : astate) : astate :=
  {| a_type := t; a_given := a_given s; a_boxes := a_boxes s; a_wild := a_wild s |}.
(** No code in /repo: the boxes of the program. *)
Definition with_boxes (l : list abox) (s : astate) : astate :=
  {| a_type := a_type s; a_given := a_given s; a_boxes := l; a_wild := a_wild s |}.

(** No code in /repo: equality of blocks. *)
Definition block_eqb (x y : atype * N) : bool := atype_eqb (fst x) (fst y) && N.eqb (snd x) (snd y).
(** No code in /repo: one element is taken out. *)
Fixpoint remove_one (x : atype * N) (l : list (atype * N)) : list (atype * N) :=
  match l with [] => [] | y :: l => if block_eqb x y then l else y :: remove_one x l end.

(** [memsec::malloc_sized], [memsec::memfd_secret_sized].  [answer] is up to the library; it gives no block twice.  No code in /repo: behind malloc.rs 95-119 and memfdsec.rs 96-122. *)
Definition mem_get (k : atype) (answer : option N) (s : astate) : astate * option N :=
  match answer with
  | Some a =>
      if existsb (fun x => N.eqb a (snd x)) (a_given s) then (s, None)
      else ({| a_type := a_type s; a_given := (k, a) :: a_given s; a_boxes := a_boxes s; a_wild := a_wild s |}, Some a)
  | None => (s, None)
  end.
(** [memsec::free], [memsec::free_memfd_secret]  No code in /repo: behind malloc.rs 121-126 and memfdsec.rs 124-130. *)
Definition mem_free (k : atype) (a : N) (s : astate) : astate :=
  if existsb (block_eqb (k, a)) (a_given s)
  then {| a_type := a_type s; a_given := remove_one (k, a) (a_given s); a_boxes := a_boxes s; a_wild := a_wild s |}
  else {| a_type := a_type s; a_given := a_given s; a_boxes := a_boxes s; a_wild := true |}.

(** [align_offset] of the standard library  Used at malloc.rs 106 and memfdsec.rs 109. *)
Definition align_offset (a align : N) : N := ((align - a mod align) mod align)%N.
(** malloc.rs 95-119 and memfdsec.rs 96-122 [allocate]; the size plays no part.  alloc/mod.rs 96-105 chooses between them. *)
Definition allocate (k : atype) (align : N) (answer : option N) (s : astate) : astate * option N :=
  let '(s, mem) := mem_get k answer s in
  match mem with
  | None => (s, None)
  | Some a => if N.eqb (align_offset a align) 0 then (s, Some a) else (mem_free k a s, None)
  end.
(** malloc.rs 121-125, memfdsec.rs 124-128 and alloc/mod.rs 107-113 [deallocate] *)
Definition deallocate (k : atype) (a : N) (s : astate) : astate := mem_free k a s.

(** No code in /repo: how a step ends. *)
Inductive outcome := Done | Refused | Panicked | Aborted.

(** alloc/mod.rs 41-43 [set_secret_alloc_type] *)
Definition set_type (k : atype) (s : astate) : astate * outcome :=
  match a_type s with
  | None => (with_type (Some k) s, Done)
  | Some _ => (s, Panicked)
  end.
(** alloc/mod.rs 64-66 [get_or_init_secret_alloc_type] *)
Definition get_or_init (k : atype) (s : astate) : astate * atype :=
  match a_type s with
  | None => (with_type (Some k) s, k)
  | Some k' => (s, k')
  end.
(** policy.rs 26-29, 40-43, 51-54 *)
Definition use_type (k : atype) (s : astate) : astate * outcome :=
  let '(s, k') := get_or_init k s in (s, if atype_eqb k k' then Done else Panicked).
(** policy.rs 10-32 [secret_policy_try_use_memfd_secrets] on Linux: a box of one byte is tried and dropped. *)
Definition policy_try_memfd (answer : option N) (s : astate) : astate * outcome :=
  let '(s, mem) := allocate Memfd 1 answer s in
  match mem with
  | Some a => use_type Memfd (deallocate Memfd a s)
  | None => use_type Malloc s
  end.
(** policy.rs 37-46, 49-57 *)
Definition policy_only_memfd (s : astate) : astate * outcome := use_type Memfd s.
Definition policy_only_malloc (s : astate) : astate * outcome := use_type Malloc s.

(** [Box::try_new_in], [Box::new_in]: if there is no memory the first returns an error and the second ends the program.  Used at alloc/mod.rs 136-155, malloc.rs 41-57 and memfdsec.rs 42-58. *)
Definition box_in (secret try : bool) (k : atype) (align : N) (answer : option N) (s : astate) : astate * outcome :=
  let '(s, mem) := allocate k align answer s in
  match mem with
  | Some a => (with_boxes ({| x_secret := secret; x_type := k; x_addr := a; x_align := align |} :: a_boxes s) s, Done)
  | None => (s, if try then Refused else Aborted)
  end.
(** alloc/mod.rs 136-138 [secret_box_try], 153-155 [secret_box], and the growth of a vector (182-184), with 80-93
    [SecretAlloc::default] *)
Definition secret_box (try : bool) (align : N) (answer : option N) (s : astate) : astate * outcome :=
  match a_type s with
  | None => (s, Panicked)
  | Some k => box_in true try k align answer s
  end.
(** malloc.rs 41-57 [malloc_box_try], [malloc_box]; memfdsec.rs 42-58 [memfdsec_box_try], [memfdsec_box] *)
Definition direct_box (try : bool) (k : atype) (align : N) (answer : option N) (s : astate) : astate * outcome :=
  box_in false try k align answer s.
(** A box is dropped.  No code in /repo: std. *)
Definition drop_box (i : nat) (s : astate) : astate * outcome :=
  match nth_error (a_boxes s) i with
  | None => (s, Done)
  | Some x => (with_boxes (firstn i (a_boxes s) ++ skipn (S i) (a_boxes s)) (deallocate (x_type x) (x_addr x) s), Done)
  end.

(** What a program, in any of its threads, can do; [OnceLock] makes each of these steps one at a time, and as the answer to the
    probe of [policy_try_memfd] can be anything, steps between the probe and the choice change nothing that is proved here.  Calls of policy.rs 10-56 and alloc/mod.rs 41-155. *)
Inductive aop :=
| ASet (k : atype) | ATryMemfd (answer : option N) | AOnlyMemfd | AOnlyMalloc
| ASecret (try : bool) (align : N) (answer : option N) | ADirect (try : bool) (k : atype) (align : N) (answer : option N)
| ADrop (i : nat).
(** No code in /repo: one step of a history. *)
Definition a_step (o : aop) (s : astate) : astate * outcome :=
  match o with
  | ASet k => set_type k s
  | ATryMemfd ans => policy_try_memfd ans s
  | AOnlyMemfd => policy_only_memfd s
  | AOnlyMalloc => policy_only_malloc s
  | ASecret try align ans => secret_box try align ans s
  | ADirect try k align ans => direct_box try k align ans s
  | ADrop i => drop_box i s
  end.
(** No code in /repo: histories. *)
Fixpoint a_run (os : list aop) (s : astate) : astate :=
  match os with [] => s | o :: os => a_run os (fst (a_step o s)) end.
