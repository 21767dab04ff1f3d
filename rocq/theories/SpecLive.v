(** Specification vocabulary for C59: a well-behaved deployment run message by message. Definitions only. *)
From Verif Require Export SpecComplete.
Open Scope string_scope.
Open Scope list_scope.
Open Scope Z_scope.

(** ** The schedule *)

(** What the workers and the clock do when message number [k] is consumed: the time, and for a task received by a worker
    its start report, its progress reports and its completion report (internal/worker/worker.go:103-205). *)
Record behaviour := mkBehaviour {
  b_clock : nat -> time;
  b_start : nat -> task -> task;
  b_progress : nat -> task -> list task;
  b_done : nat -> task -> task }.

(** Every task a worker receives is reported started, any number of times in progress, and completed: the reports are about the task received. *)
Definition completes_all (b : behaviour) : Prop := forall k t,
  worker_report t (b_start b k t) /\ t_state (b_start b k t) = TRunning /\
  Forall (worker_report t) (b_progress b k t) /\
  worker_report t (b_done b k t) /\ t_state (b_done b k t) = TCompleted.

Definition reports (b : behaviour) (k : nat) (t : task) : list msg :=
  MTask QUEUE_STARTED (b_start b k t) :: map MProgress (b_progress b k t) ++ [MTask QUEUE_COMPLETED (b_done b k t)].

(** First come, first served: the state is the world and the number of messages consumed so far (broker/inmemory.go delivers every
    queue in order; here one order for all the queues).  Message number [k], if there is one, is consumed to the end: by a worker
    if it is a task on a worker queue, by the coordinator otherwise (which ignores messages on nodes' private queues and events).
    No operation fails. *)
Definition consume (O : oracle) (b : behaviour) (k : nat) (m : msg) (w : world) : world :=
  let coordinator := fst (run (deliver O (N.to_nat (w_fresh w)) m) w) in
  match m with
  | MTask q t => if is_task_queue q then w <| w_hist := w_hist w ++ reports b k t |> else coordinator
  | _ => coordinator
  end.
Definition fifo_step (O : oracle) (b : behaviour) (s : world * nat) : world * nat :=
  match nth_error (w_hist (fst s)) (snd s) with
  | None => s
  | Some m => (consume O b (snd s) m ((fst s) <| w_clock := b_clock b (snd s) |> <| w_faults := [] |>), S (snd s))
  end.
Fixpoint fifo (O : oracle) (b : behaviour) (n : nat) (s : world * nat) : world * nat :=
  match n with O%nat => s | S n => fifo O b n (fifo_step O b s) end.

(** ** The job *)

(** the templates of the job evaluate, whatever its context *)
Definition evaluable (O : oracle) (d : job) : Prop :=
  (forall c def, In def (j_tasks d) -> exists t, eval_task (o_tmpl O c None) def = inl t) /\
  (forall c, exists r, o_tmpl O c None (j_output d) = inl r).
(** its tasks go to queues that workers serve *)
Definition served (O : oracle) (d : job) : Prop :=
  forall c def t, In def (j_tasks d) -> eval_task (o_tmpl O c None) def = inl t ->
    is_task_queue (first_set [t_queue t; d_queue (defaults_of d); "default"]) = true.

(** ** What happened *)

(** the tasks handed to workers *)
Fixpoint handed (l : list msg) : list task :=
  match l with
  | [] => []
  | MTask q t :: r => if is_task_queue q then t :: handed r else handed r
  | _ :: r => handed r
  end.

(** what the user wrote in a task (apart from queue, limits, timeout, retry and priority, which have defaults, and the probe, which is not stored) *)
Definition body (t : task) :=
  (t_name t, t_description t, t_cmd t, t_entrypoint t, t_run t, t_image t, t_registry t, t_env t, t_files t,
   (t_pre t, t_post t, t_sidecars t, t_mounts t, t_networks t, t_var t, t_if t, t_parallel t, t_each t, t_subjob t),
   t_gpus t, t_tags t, t_workdir t).

(** [worked O b d i c defs rows sent c']: the tasks [defs] of the job [d], stored with identifier [i], were done one after the other from
    the context [c], leaving the rows [rows] and the context [c']; the tasks handed to the workers were [sent]. *)
Inductive worked (O : oracle) (b : behaviour) (d : job) (i : id) (c : jobctx) : list task -> list task -> list task -> jobctx -> Prop :=
| worked_nil : worked O b d i c [] [] [] c
(** the condition of the task is false: it is not executed *)
| worked_skip defs rows sent c1 def t u c2 :
    worked O b d i c defs rows sent c1 ->
    eval_task (o_tmpl O c1 None) def = inl t -> false_padded (t_if t) ->
    t_job u = i -> t_position u = Z.of_nat (S (length rows)) -> body u = body t ->
    t_state u = TSkipped -> t_result u = "" -> context_after u c1 c2 ->
    worked O b d i c (defs ++ [def]) (rows ++ [u]) sent c2
(** the task is executed once, with its settings resolved, and the result is the worker's *)
| worked_run defs rows sent c1 def t u k m c2 :
    worked O b d i c defs rows sent c1 ->
    eval_task (o_tmpl O c1 None) def = inl t -> ~ false_padded (t_if t) ->
    t_job u = i -> t_position u = Z.of_nat (S (length rows)) -> body u = body t ->
    t_state u = TCompleted -> t_result u = t_result (b_done b k m) ->
    t_id m = t_id u -> resolved d (identity (t_id u) i noid TPending (t_position u) (t_created u) t) m ->
    context_after u c1 c2 ->
    worked O b d i c (defs ++ [def]) (rows ++ [u]) (sent ++ [m]) c2.
