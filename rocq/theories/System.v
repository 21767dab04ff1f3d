(** The deployment as an interleaving machine. Definitions only.

    A configuration is the shared world plus the handler goroutines currently running in
    some coordinator (or API server).  One step is one atomic datastore/broker operation of one of them, or
    an action of the environment.  Messages are taken from the whole history of published
    messages: a message may be lost, delayed, reordered or delivered any number of times.  Killing
    any set of threads models crashes of coordinators at any point. *)
From Verif Require Export Handlers.
Open Scope string_scope.
Open Scope list_scope.
Open Scope Z_scope.

(** Why a thread runs. *)
Inductive origin :=
| OMsg (m : msg)         (* a consumed broker message: coordinator.go:238-293 *)
| OSubmit (d : job)      (* POST /jobs: api.go:363-387 *)
| OCancel (i : id)       (* PUT /jobs/:id/cancel *)
| ORestart (i : id).     (* PUT /jobs/:id/restart *)

Record config := mkConfig { cw : world; cthreads : list (origin * prog unit) }.

(** Task definitions as produced by input/task.go:178-263: no runtime fields are set, at any depth
    (retry attempts: input/task.go toTaskRetry copies the limit only). *)
Fixpoint pristine (t : task) : Prop :=
  t_id t = noid /\ t_job t = noid /\ t_parent t = noid /\ t_redelivered t = 0 /\ t_node t = noid /\
  t_error t = "" /\ t_result t = "" /\ t_progress t = 0 /\
  t_failed t = None /\ t_completed t = None /\ t_started t = None /\ t_scheduled t = None /\
  match t_retry t with Some r => r_attempts r = 0 | None => True end /\
  match t_parallel t with
  | Some p => p_completions p = 0 /\ fold_right (fun c P => pristine c /\ P) True (p_tasks p)
  | None => True end /\
  match t_each t with
  | Some e => e_completions e = 0 /\ e_size e = 0 /\ e_index e = 0 /\ pristine (e_task e)
  | None => True end /\
  match t_subjob t with
  | Some s => s_id s = noid /\ fold_right (fun c P => pristine c /\ P) True (s_tasks s)
  | None => True end.

(** What the API accepts (the part of validation the machine relies on; Validate.v). *)
Definition defaults_ok (d : option jobdefaults) : Prop :=
  match d with Some df => match d_retry df with Some r => 0 <= r_limit r | None => True end | None => True end.
Definition accepted (d : job) : Prop :=
  j_tasks d <> [] /\ Forall pristine (j_tasks d) /\ defaults_ok (j_defaults d).

(** A worker reports about a task message it received (internal/worker/worker.go:103-205): the report keeps
    the task's identity and definition; state, times, node, limits, timeout, result, error,
    progress (and whatever worker middleware touches: env, mounts, ...) are up to the worker.  The start report is
    a Clone, which drops the redelivery count. *)
Definition worker_report (t t' : task) : Prop :=
  t_id t' = t_id t /\ t_job t' = t_job t /\ t_parent t' = t_parent t /\ t_position t' = t_position t /\
  t_var t' = t_var t /\ t_if t' = t_if t /\ t_queue t' = t_queue t /\ t_retry t' = t_retry t /\
  t_parallel t' = t_parallel t /\ t_each t' = t_each t /\ t_subjob t' = t_subjob t /\
  (t_redelivered t' = t_redelivered t \/ t_redelivered t' = 0).

(** Messages published from outside the coordinator, given the history [h].  Workers consume task
    queues (worker.go:275-287; simplification: a worker is not configured to consume another node's
    private queue); a node's own queue only carries cancellations (worker.go:85-97). *)
Inductive env_msg (h : list msg) : msg -> Prop :=
| env_started q t t' : In (MTask q t) h -> is_task_queue q = true ->
    worker_report t t' -> t_state t' = TRunning -> env_msg h (MTask QUEUE_STARTED t')
| env_completed q t t' : In (MTask q t) h -> is_task_queue q = true ->
    worker_report t t' -> t_state t' = TCompleted -> env_msg h (MTask QUEUE_COMPLETED t')
| env_failed q t t' : In (MTask q t) h -> is_task_queue q = true ->
    worker_report t t' -> t_state t' = TFailed -> env_msg h (MTask QUEUE_ERROR t')
| env_progress q t t' : In (MTask q t) h -> is_task_queue q = true ->
    worker_report t t' -> env_msg h (MProgress t')
(** broker/rabbitmq.go:345-367: any redelivered task message, from any queue *)
| env_redelivered q t : In (MTask q t) h -> env_msg h (MTask QUEUE_REDELIVERIES t)
(** worker.go:207-247: the node's queue is the exclusive prefix plus its id *)
| env_heartbeat n : String.prefix QUEUE_EXCLUSIVE_PREFIX (n_queue n) = true -> env_msg h (MHeartbeat n).

Inductive label :=
| LDeliver (m : msg)        (* a coordinator consumes a copy of [m] *)
| LApi (o : origin)         (* an API request starts *)
| LOp (o : origin)          (* one operation of a thread started for [o] *)
| LKill (o : origin)        (* that thread disappears: crash *)
| LEnv                      (* time passes, faults are chosen *)
| LEmit (m : msg).          (* a worker or the broker publishes [m] *)

Section Machine.
Variable O : oracle.

Definition api_prog (o : origin) : option (prog unit) :=
  match o with
  | OMsg _ => None
  | OSubmit d => Some (api_submit d)
  | OCancel i => Some (api_cancel i)
  | ORestart i => Some (api_restart i)
  end.

Definition api_ok (o : origin) : Prop :=
  match o with OSubmit d => accepted d | _ => True end.

Inductive step : config -> label -> config -> Prop :=
(** The recursion budget is the number of identifiers handed out so far: more than the depth of any chain
    of parents (no thread ever runs out of it: [fuel_suffices], PropsState.v). *)
| step_deliver w ths m : In m (w_hist w) ->
    step (mkConfig w ths) (LDeliver m) (mkConfig w (ths ++ [(OMsg m, deliver O (N.to_nat (w_fresh w)) m)]))
| step_api w ths o p : api_prog o = Some p -> api_ok o ->
    step (mkConfig w ths) (LApi o) (mkConfig w (ths ++ [(o, p)]))
| step_op w l1 o B (f : act B) k l2 w' r : f w = (w', r) ->
    step (mkConfig w (l1 ++ (o, Step f k) :: l2)) (LOp o) (mkConfig w' (l1 ++ (o, k r) :: l2))
| step_kill w l1 o p l2 :
    step (mkConfig w (l1 ++ (o, p) :: l2)) (LKill o) (mkConfig w (l1 ++ l2))
| step_env w ths c fs :
    step (mkConfig w ths) LEnv (mkConfig (w <| w_clock := c |> <| w_faults := fs |>) ths)
| step_emit w ths m : env_msg (w_hist w) m ->
    step (mkConfig w ths) (LEmit m) (mkConfig (w <| w_hist := w_hist w ++ [m] |>) ths).

(** Finite executions with their labels. *)
Inductive exec : config -> list label -> config -> Prop :=
| exec_nil c : exec c [] c
| exec_snoc c1 ls c2 l c3 : exec c1 ls c2 -> step c2 l c3 -> exec c1 (ls ++ [l]) c3.

(** An empty deployment: nothing stored, nothing published, nothing running. *)
Definition empty_world (clk : time) (fs : list bool) : world := mkWorld [] [] [] [] 1%N clk fs [].
Definition initial (c : config) : Prop := exists clk fs, c = mkConfig (empty_world clk fs) [].
Definition reachable (c : config) : Prop := exists c0 ls, initial c0 /\ exec c0 ls c.

End Machine.
