(** Cleanup jobs: util/src/tokio/janitor.rs.

    A janitor runs beside a future, takes the cleanup jobs that are scheduled from within it, and is waited for when the future is done.
    The order in which tasks make progress is arbitrary: a history is any list of [jstep].
    The tasks that the agent starts for itself (271-298) do not panic and are not cancelled while it runs, so that lines 236-252 are left out. *)
From Verif Require Import Base.

(** How a job ends: [Ok(())], an error, or a panic or cancellation  util/src/tokio/janitor.rs 119-145 *)
Inductive jres := JOk | JErr | JPanic.
(** janitor.rs 119-145 [AgentInternalEvent] *)
Inductive jevent := VSuccessful | VReturnedError | VJoinError | VReceived (j : nat) | VClosed.
(** The tasks in the agent's set: one waits for the next ticket (janitor.rs 271-285), one waits for a job (289-298), one has ended *)
Inductive jtask := TRecv | TWait (j : nat) | TEnded (e : jevent).
(** [j_jobs]: how each job that was started has ended; [j_taken]: those whose scheduling was reported successful.
    [j_tx]: the supervisor's end of the queue exists, which it does until the future is done (370); the clients' ends are weak (308).
    [j_agent]: the result of the agent (346), if it has ended *)
Record jan := {
  j_jobs : list (option jres); j_taken : list nat; j_queue : list nat; j_tx : bool; j_tasks : list jtask; j_closed : bool; j_agent : option (res unit unit)
}.
(** janitor.rs 147-176, 511-519: the agent before its first event *)
Definition jan0 : jan := {| j_jobs := []; j_taken := []; j_queue := []; j_tx := true; j_tasks := [TRecv]; j_closed := false; j_agent := None |}.

(** No code in /repo: the scheduler of tokio around util/src/tokio/janitor.rs 147-371. *)
Inductive jstep :=
| SSpawn (late : bool)        (* the future schedules a job; [late]: the queue takes a ticket although the agent has ended, its tasks not being gone yet *)
| SFinish (j : nat) (r : jres) (* a job ends *)
| SLeave                      (* the future is done *)
| SWork (i : nat)             (* the [i]th task of the agent ends *)
| SHandle (i : nat)           (* the agent handles the event of the [i]th task *)
| SIdle.                      (* the agent finds that it has no tasks *)

(** No code in /repo: replaces and removes the [i]th element of a list. *)
Definition set_nth {A} (i : nat) (x : A) (l : list A) : list A := firstn i l ++ x :: skipn (S i) l.
Definition drop_nth {A} (i : nat) (l : list A) : list A := firstn i l ++ skipn (S i) l.
(** janitor.rs 147-176: assignment to the set of tasks *)
Definition with_tasks (s : jan) (t : list jtask) : jan :=
  {| j_jobs := j_jobs s; j_taken := j_taken s; j_queue := j_queue s; j_tx := j_tx s; j_tasks := t; j_closed := j_closed s; j_agent := j_agent s |}.
(** The agent ends; its set of tasks is dropped with it, and the jobs that are waited for are let go  janitor.rs 167-179 *)
Definition agent_ends (s : jan) (r : res unit unit) : jan :=
  {| j_jobs := j_jobs s; j_taken := j_taken s; j_queue := j_queue s; j_tx := j_tx s; j_tasks := []; j_closed := j_closed s; j_agent := Some r |}.

(** janitor.rs 328-338 [spawn_cleanup_task], 614-621 [spawn_cleanup_job]: the job is started in any case; [Panic]: it is not taken *)
Definition jspawn (late : bool) (s : jan) : jan * res unit unit :=
  let j := length (j_jobs s) in
  let mk taken queue := {| j_jobs := j_jobs s ++ [None]; j_taken := taken; j_queue := queue; j_tx := j_tx s; j_tasks := j_tasks s; j_closed := j_closed s; j_agent := j_agent s |} in
  match j_agent s with
  | None => (mk (j_taken s ++ [j]) (j_queue s ++ [j]), Ok tt)
  | Some _ => if late then (mk (j_taken s ++ [j]) (j_queue s), Ok tt) else (mk (j_taken s) (j_queue s), Panic)
  end.
(** janitor.rs 271-298 *)
Definition jwork (i : nat) (s : jan) : option jan :=
  match nth_error (j_tasks s) i with
  | Some TRecv =>
      match j_queue s with
      | j :: q => Some {| j_jobs := j_jobs s; j_taken := j_taken s; j_queue := q; j_tx := j_tx s; j_tasks := set_nth i (TEnded (VReceived j)) (j_tasks s);
                          j_closed := j_closed s; j_agent := j_agent s |}
      | [] => if j_tx s then None else Some (with_tasks s (set_nth i (TEnded VClosed) (j_tasks s)))
      end
  | Some (TWait j) =>
      match nth_error (j_jobs s) j with
      | Some (Some JOk) => Some (with_tasks s (set_nth i (TEnded VSuccessful) (j_tasks s)))
      | Some (Some JErr) => Some (with_tasks s (set_nth i (TEnded VReturnedError) (j_tasks s)))
      | Some (Some JPanic) => Some (with_tasks s (set_nth i (TEnded VJoinError) (j_tasks s)))
      | _ => None
      end
  | _ => None
  end.
(** janitor.rs 181-232 [handle_one_event] with the event of the [i]th task *)
Definition jhandle (i : nat) (s : jan) : option jan :=
  match nth_error (j_tasks s) i with
  | Some (TEnded e) =>
      let rest := drop_nth i (j_tasks s) in
      match e with
      | VSuccessful => Some (with_tasks s rest)
      | VReceived j => Some (with_tasks s (rest ++ [TRecv; TWait j]))
      | VClosed => Some {| j_jobs := j_jobs s; j_taken := j_taken s; j_queue := j_queue s; j_tx := j_tx s; j_tasks := rest; j_closed := true; j_agent := j_agent s |}
      | VReturnedError | VJoinError => Some (agent_ends s (Err tt))
      end
  | _ => None
  end.
(** 205 and janitor.rs 257-265: no tasks are left.  The internal error is told apart as a panic. *)
Definition jidle (s : jan) : option jan :=
  match j_tasks s with [] => Some (agent_ends s (if j_closed s then Ok tt else Panic)) | _ => None end.

(** One step; [None]: it is not possible  No code in /repo: the scheduler of tokio. *)
Definition jdo (st : jstep) (s : jan) : option jan :=
  match st with
  | SSpawn late => if j_tx s then Some (fst (jspawn late s)) else None
  | SFinish j r => match nth_error (j_jobs s) j with
                   | Some None => Some {| j_jobs := set_nth j (Some r) (j_jobs s); j_taken := j_taken s; j_queue := j_queue s; j_tx := j_tx s; j_tasks := j_tasks s;
                                          j_closed := j_closed s; j_agent := j_agent s |}
                   | _ => None
                   end
  | SLeave => if j_tx s then Some {| j_jobs := j_jobs s; j_taken := j_taken s; j_queue := j_queue s; j_tx := false; j_tasks := j_tasks s; j_closed := j_closed s; j_agent := j_agent s |}
              else None
  | SWork i => match j_agent s with None => jwork i s | Some _ => None end
  | SHandle i => match j_agent s with None => jhandle i s | Some _ => None end
  | SIdle => match j_agent s with None => jidle s | Some _ => None end
  end.
(** No code in /repo: histories. *)
Fixpoint jrun (l : list jstep) (s : jan) : option jan :=
  match l with [] => Some s | st :: l => match jdo st s with Some s => jrun l s | None => None end end.

(** janitor.rs 511-522, 543-550, 466-485: what [enter_janitor] returns, once the future is done and the agent has ended *)
Definition unwrap_janitor {T E} (janitor : option (res unit unit)) (callee : res E T) : res E T :=
  match janitor with None | Some (Ok _) => callee | Some _ => Panic end.
Definition enter_result {T E} (s : jan) (callee : res E T) : option (res E T) :=
  if j_tx s then None else match j_agent s with Some r => Some (unwrap_janitor (Some r) callee) | None => None end.
(** janitor.rs 318-323 [is_closed], 579-583 [has_active_janitor]; [inside]: the caller is the future of a janitor; [gone]: the receiving end of the queue
    has been dropped *)
Definition has_active_janitor (inside gone : bool) (s : jan) : bool :=
  if inside then (if j_tx s then gone else false) else false.
