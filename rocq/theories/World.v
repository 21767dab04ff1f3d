(** The shared state of a tork deployment as seen by the coordinator, and the
    programs that coordinator handlers are. Definitions only.

    A handler is a [prog]: a tree of atomic operations on the world.  The same
    program is given a sequential semantics ([run]) and an interleaving one
    (System.v). *)
From Verif Require Export Types.
Open Scope string_scope.
Open Scope list_scope.
Open Scope Z_scope.

(** Everything that can be published on a broker (broker/broker.go:91-115).
    Log parts are modelled separately (LogShipper.v). *)
Inductive msg :=
| MTask (q : string) (t : task)      (* PublishTask(qname, t) *)
| MJob (j : job)                     (* PublishJob(j), queue "jobs" *)
| MEvent (topic : string) (j : job)  (* PublishEvent(topic, j) *)
| MProgress (t : task)               (* PublishTaskProgress(t) *)
| MHeartbeat (n : node).             (* PublishHeartbeat(n) *)

Record world := mkWorld {
  w_tasks : list task;   (* table tasks, insertion order (db/postgres/schema.go:130-170) *)
  w_jobs : list job;     (* table jobs *)
  w_nodes : list node;   (* table nodes *)
  w_hist : list msg;     (* every message ever published, oldest first *)
  w_fresh : N;           (* next value returned by uuid.NewUUID *)
  w_clock : time;        (* time.Now().UTC() *)
  w_faults : list bool;  (* adversary: [true] makes the next operation fail *)
  w_auto : list id       (* rows written outside the open transaction, see [a_with_tx] *)
}.
#[export] Instance eta_world : Settable world := settable! mkWorld
  <w_tasks; w_jobs; w_nodes; w_hist; w_fresh; w_clock; w_faults; w_auto>.

(** Result of Go code: a value, a returned error, or a panic.  An error carries the
    message and, for task handlers, the message task as mutated in place before the
    error was returned (the queue wrappers read it: coordinator.go:310-323).
    [OutOfFuel] is not a Go outcome: it marks exhaustion of the recursion budget of
    [complete_task] (Handlers.v). *)
Inductive outcome (A : Type) :=
| Ok (a : A)
| Err (e : string) (m : option task)
| Panic
| OutOfFuel.
Arguments Ok {A}. Arguments Err {A}. Arguments Panic {A}. Arguments OutOfFuel {A}.

(** Atomic actions. *)
Definition act (A : Type) := world -> world * outcome A.

Definition aret {A} (a : A) : act A := fun w => (w, Ok a).
Definition aerr {A} (e : string) : act A := fun w => (w, Err e None).
Definition abind {A B} (f : act A) (g : A -> act B) : act B := fun w =>
  match f w with
  | (w', Ok a) => g a w'
  | (w', Err e m) => (w', Err e m)
  | (w', Panic) => (w', Panic)
  | (w', OutOfFuel) => (w', OutOfFuel)
  end.

(** Any datastore or broker call may fail without effect; the adversary decides. *)
Definition faulty {A} (f : act A) : act A := fun w =>
  match w_faults w with
  | true :: r => (w <| w_faults := r |>, Err "fault" None)
  | false :: r => f (w <| w_faults := r |>)
  | [] => f w
  end.

Definition find_task (i : id) (w : world) : option task :=
  find (fun t => N.eqb (t_id t) i) (w_tasks w).
Definition find_job (i : id) (w : world) : option job :=
  find (fun j => N.eqb (j_id j) i) (w_jobs w).
Definition find_node (i : id) (w : world) : option node :=
  find (fun n => N.eqb (n_id n) i) (w_nodes w).

Definition put_task (u : task) (l : list task) : list task :=
  map (fun t => if N.eqb (t_id t) (t_id u) then u else t) l.
Definition put_job (u : job) (l : list job) : list job :=
  map (fun j => if N.eqb (j_id j) (j_id u) then u else j) l.
Definition put_node (u : node) (l : list node) : list node :=
  map (fun n => if N.eqb (n_id n) (n_id u) then u else n) l.

(** postgres.go:403-412 *)
Definition a_get_task (i : id) : act task := faulty (fun w =>
  match find_task i w with Some t => (w, Ok t) | None => (w, Err "task not found" None) end).
(** postgres.go:784-842. Simplification: [Execution] is not filled in. *)
Definition a_get_job (i : id) : act job := faulty (fun w =>
  match find_job i w with Some j => (w, Ok j) | None => (w, Err "job not found" None) end).
(** postgres.go:564-573; [toNode]'s OFFLINE substitution (record.go:300) is modelled in Heartbeat.v:
    coordinator handlers only use the queue name. *)
Definition a_get_node (i : id) : act node := faulty (fun w =>
  match find_node i w with Some n => (w, Ok n) | None => (w, Err "node not found" None) end).
(** postgres.go:844-865. Simplification: rows in insertion order. *)
Definition a_get_active (jid : id) : act (list task) := faulty (fun w =>
  (w, Ok (filter (fun t => N.eqb (t_job t) jid && active (t_state t))%bool (w_tasks w)))).
(** postgres.go:867-876. The query has no ORDER BY; the model takes the first row inserted. *)
Definition next_created (pid : id) (w : world) : option task :=
  find (fun t => N.eqb (t_parent t) pid && tstate_eqb (t_state t) TCreated)%bool (w_tasks w).
Definition a_get_next (pid : id) : act task := faulty (fun w =>
  match next_created pid w with Some t => (w, Ok t) | None => (w, Err "task not found" None) end).

(** postgres.go:414-522: select for update, modify, write back.  [modify] may return an
    error (nothing is written) or panic; it may also produce a value captured by the
    enclosing Go closure.  All columns assigned by a closure of the modelled handlers are
    in the UPDATE column list (postgres.go:476-495). *)
Definition a_update_task {A} (i : id) (modify : task -> outcome (task * A)) : act A := faulty (fun w =>
  match find_task i w with
  | None => (w, Err "error fetching task from db" None)
  | Some u =>
      match modify u with
      | Ok (u', a) => (w <| w_tasks := put_task u' (w_tasks w) |>, Ok a)
      | Err e m => (w, Err e m)
      | Panic => (w, Panic)
      | OutOfFuel => (w, OutOfFuel)
      end
  end).
(** postgres.go:732-782; columns written: postgres.go:767-778. *)
Definition a_update_job {A} (i : id) (modify : job -> outcome (job * A)) : act A := faulty (fun w =>
  match find_job i w with
  | None => (w, Err "error fetching job from db" None)
  | Some u =>
      match modify u with
      | Ok (u', a) => (w <| w_jobs := put_job u' (w_jobs w) |>, Ok a)
      | Err e m => (w, Err e m)
      | Panic => (w, Panic)
      | OutOfFuel => (w, OutOfFuel)
      end
  end).

(** What a row read back after CreateTask contains: postgres.go:304-345 stores neither
    Redelivered nor Progress (default 0) nor Probe. *)
Definition db_task (t : task) : task :=
  t <| t_redelivered := 0 |> <| t_progress := 0 |> <| t_probe := None |>.
(** postgres.go:210-397: primary key on id, foreign key on job_id (schema.go:131-132). *)
Definition a_create_task (t : task) : act unit := faulty (fun w =>
  if existsb (fun u => N.eqb (t_id u) (t_id t)) (w_tasks w)
  then (w, Err "duplicate task id" None)
  else if existsb (fun j => N.eqb (j_id j) (t_job t)) (w_jobs w)
  then (w <| w_tasks := w_tasks w ++ [db_task t] |>, Ok tt)
  else (w, Err "unknown job" None)).
(** postgres.go:593-730 (encryption of secrets: Secrets.v). *)
Definition a_create_job (j : job) : act unit := faulty (fun w =>
  if existsb (fun u => N.eqb (j_id u) (j_id j)) (w_jobs w)
  then (w, Err "duplicate job id" None)
  else (w <| w_jobs := w_jobs w ++ [j] |>, Ok tt)).

(** broker.PublishTask / PublishJob / PublishEvent (the message is serialised, i.e. a snapshot). *)
Definition a_publish (m : msg) : act unit := faulty (fun w =>
  (w <| w_hist := w_hist w ++ [m] |>, Ok tt)).

(** uuid.NewUUID and time.Now: never fail. *)
Definition a_new_id : act id := fun w => (w <| w_fresh := N.succ (w_fresh w) |>, Ok (w_fresh w)).
Definition a_now : act time := fun w => (w, Ok (w_clock w)).

(** postgres.go:1615-1648.  The body runs with row locks held, so the transaction is one
    atomic operation here.  On an error, or a failing commit, the tables are rolled back; messages already
    published and rows written through the *outer* datastore handle (completed.go:84-97 writes the
    next child that way; recorded in [w_auto]) stay. *)
Definition mark_pending (l : list id) (ts : list task) : list task :=
  map (fun t => if existsb (N.eqb (t_id t)) l then t <| t_state := TPending |> else t) ts.
Definition rollback (w0 w1 : world) : world :=
  w1 <| w_tasks := mark_pending (w_auto w1) (w_tasks w0) |> <| w_jobs := w_jobs w0 |> <| w_auto := [] |>.
Definition a_with_tx {A} (body : act A) : act A := fun w =>
  match body (w <| w_auto := [] |>) with
  | (w1, Ok a) =>
      match faulty (aret tt) w1 with
      | (w2, Ok _) => (w2 <| w_auto := [] |>, Ok a)
      | (w2, _) => (rollback w w2, Err "error committing transaction" None)
      end
  | (w1, Err e m) => (rollback w w1, Err e m)
  | (w1, Panic) => (rollback w w1, Panic)
  | (w1, OutOfFuel) => (rollback w w1, OutOfFuel)
  end.

(** Programs. *)
Inductive prog (A : Type) :=
| Done (o : outcome A)
| Step (B : Type) (f : act B) (k : outcome B -> prog A).
Arguments Done {A}. Arguments Step {A B}.

Definition ret {A} (a : A) : prog A := Done (Ok a).
Definition fail {A} (e : string) : prog A := Done (Err e None).
Definition panic {A} : prog A := Done Panic.
Definition op {A} (f : act A) : prog A := Step f Done.

Fixpoint bind {A B} (p : prog A) (f : A -> prog B) : prog B :=
  match p with
  | Done (Ok a) => f a
  | Done (Err e m) => Done (Err e m)
  | Done Panic => Done Panic
  | Done OutOfFuel => Done OutOfFuel
  | Step g k => Step g (fun o => bind (k o) f)
  end.

(** Run [h] if [p] returns an error. *)
Fixpoint catch {A} (p : prog A) (h : string -> option task -> prog A) : prog A :=
  match p with
  | Done (Err e m) => h e m
  | Done o => Done o
  | Step g k => Step g (fun o => catch (k o) h)
  end.

(** Errors returned by [p] leave the handler with the message task mutated to [t]. *)
Definition with_msg {A} (t : task) (p : prog A) : prog A :=
  catch p (fun e m => Done (Err e (match m with Some t' => Some t' | None => Some t end))).

Notation "'let*' x ':=' p 'in' q" := (bind p (fun x => q))
  (at level 200, x pattern, p at level 100, q at level 200, right associativity).
Notation "p ;;; q" := (bind p (fun _ => q)) (at level 199, right associativity).

Definition get_task i := op (a_get_task i).
Definition get_job i := op (a_get_job i).
Definition get_node i := op (a_get_node i).
Definition get_active j := op (a_get_active j).
Definition update_task {A} i (f : task -> outcome (task * A)) := op (a_update_task i f).
Definition update_job {A} i (f : job -> outcome (job * A)) := op (a_update_job i f).
Definition create_task t := op (a_create_task t).
Definition create_job j := op (a_create_job j).
Definition publish_task q t := op (a_publish (MTask q t)).
Definition publish_job j := op (a_publish (MJob j)).
Definition publish_event tp j := op (a_publish (MEvent tp j)).
Definition new_id := op a_new_id.
Definition now := op a_now.
Definition with_tx {A} (b : act A) := op (a_with_tx b).

(** A closure that always succeeds and returns nothing. *)
Definition modi {R} (f : R -> R) : R -> outcome (R * unit) := fun u => Ok (f u, tt).

(** Sequential semantics: the program alone, to its end. *)
Fixpoint run {A} (p : prog A) (w : world) : world * outcome A :=
  match p with
  | Done o => (w, o)
  | Step f k => let '(w', o) := f w in run (k o) w'
  end.
