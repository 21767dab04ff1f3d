(** Specification vocabulary for the state-machine properties (C01-C04, C13, C25, C57, C60).
    Written over the data types and the machine only; no handler is mentioned. Definitions only. *)
From Verif Require Export System.
Open Scope string_scope.
Open Scope list_scope.
Open Scope Z_scope.

(* ------------------------------------------------------------------ *)
(** * What a thread was started for *)

(** the job a thread is about *)
Definition job_of (o : origin) : id :=
  match o with
  | OMsg (MTask _ t) => t_job t
  | OMsg (MProgress t) => t_job t
  | OMsg (MJob j) => j_id j
  | OMsg (MEvent _ j) => j_id j
  | OMsg (MHeartbeat _) => noid
  | OSubmit _ => noid
  | OCancel i => i
  | ORestart i => i
  end.
(** the task a thread is about *)
Definition task_of (o : origin) : option id :=
  match o with
  | OMsg (MTask _ t) => Some (t_id t)
  | OMsg (MProgress t) => Some (t_id t)
  | _ => None
  end.
Definition is_msg (o : origin) : Prop := exists m, o = OMsg m.
Definition from_queue (q : string) (o : origin) : Prop := exists t, o = OMsg (MTask q t).
Definition from_job_msg (s : jstate) (o : origin) : Prop := exists j, o = OMsg (MJob j) /\ j_state j = s.

Definition live (s : jstate) : Prop := s = JScheduled \/ s = JRunning.

(* ------------------------------------------------------------------ *)
(** * Job state machine *)

(** [job_edge o s s']: a thread started for [o] may move a job it is about from [s] to [s']. *)
Inductive job_edge (o : origin) : jstate -> jstate -> Prop :=
| je_start s : from_job_msg JPending o -> job_edge o s JScheduled
| je_run : from_queue QUEUE_STARTED o -> job_edge o JScheduled JRunning
| je_complete s : from_queue QUEUE_COMPLETED o -> live s -> job_edge o s JCompleted
| je_cancel s : from_job_msg JCancelled o -> live s -> job_edge o s JCancelled
| je_fail s : is_msg o -> live s -> job_edge o s JFailed
| je_restart s : from_job_msg JRestart o -> s = JFailed \/ s = JCancelled -> job_edge o s JRunning.

(** The fields of a job fixed at submission. *)
Definition jdef (j : job) : job :=
  j <| j_state := JPending |> <| j_started := None |> <| j_completed := None |> <| j_failed := None |>
    <| j_position := 0 |> <| j_context := (j_context j) <| c_tasks := [] |> |> <| j_result := "" |>
    <| j_error := "" |> <| j_deleteat := None |> <| j_progress := 0 |>.

(** What the user sees as the outcome of a job. *)
Definition job_outcome (j : job) := (j_result j, j_error j, j_completed j, j_failed j, j_deleteat j).

(** One operation of a thread started for [o] changes a stored job from [j] to [j']. *)
Definition job_step (o : origin) (j j' : job) : Prop :=
  jdef j' = jdef j /\
  (j_id j <> job_of o -> j' = j) /\
  (j_state j' = j_state j \/ job_edge o (j_state j) (j_state j')) /\
  (j_state j' = j_state j -> job_outcome j' = job_outcome j) /\
  (j_position j' = j_position j \/
   (from_job_msg JPending o /\ j_position j' = 1) \/
   (from_queue QUEUE_COMPLETED o /\ j_position j' = j_position j + 1)) /\
  (c_tasks (j_context j') = c_tasks (j_context j) \/ from_queue QUEUE_COMPLETED o).

(* ------------------------------------------------------------------ *)
(** * Task state machine *)

Inductive task_edge (o : origin) (i : id) : tstate -> tstate -> Prop :=
| te_sched s s' : (from_queue QUEUE_PENDING o /\ task_of o = Some i) \/ from_job_msg JPending o ->
    s' = TScheduled \/ s' = TRunning \/ s' = TSkipped -> task_edge o i s s'
| te_start : from_queue QUEUE_STARTED o -> task_of o = Some i -> task_edge o i TScheduled TRunning
| te_complete s s' : from_queue QUEUE_COMPLETED o -> s = TRunning \/ s = TScheduled \/ s = TSkipped ->
    s' = TCompleted \/ s' = TSkipped -> task_edge o i s s'
| te_release : from_queue QUEUE_COMPLETED o -> task_edge o i TCreated TPending
| te_fail s : task_of o = Some i -> active s = true -> task_edge o i s TFailed
| te_cancel s : is_msg o -> task_edge o i s TCancelled.

(** The fields of a task row fixed at creation. *)
Definition tdef (t : task) : task :=
  t <| t_state := TCreated |> <| t_scheduled := None |> <| t_started := None |> <| t_completed := None |>
    <| t_failed := None |> <| t_queue := "" |> <| t_error := "" |> <| t_node := noid |> <| t_retry := None |>
    <| t_limits := None |> <| t_timeout := "" |> <| t_result := "" |> <| t_priority := 0 |> <| t_progress := 0 |>
    <| t_parallel := match t_parallel t with Some p => Some (p <| p_completions := 0 |>) | None => None end |>
    <| t_each := match t_each t with
                 | Some e => Some (e <| e_size := 0 |> <| e_completions := 0 |> <| e_index := 0 |>)
                 | None => None end |>
    <| t_subjob := match t_subjob t with Some s => Some (s <| s_id := noid |>) | None => None end |>.

Definition task_step (o : origin) (t t' : task) : Prop :=
  tdef t' = tdef t /\
  (t_job t <> job_of o -> t' = t) /\
  (t_state t' = t_state t \/ task_edge o (t_id t) (t_state t) (t_state t')) /\
  (* error and failure time change only when the task fails *)
  ((t_error t' = t_error t /\ t_failed t' = t_failed t) \/ (active (t_state t) = true /\ t_state t' = TFailed)) /\
  (* result and completion time change only when a completion is accepted *)
  ((t_result t' = t_result t /\ t_completed t' = t_completed t) \/
   (from_queue QUEUE_COMPLETED o /\ (t_state t = TRunning \/ t_state t = TScheduled \/ t_state t = TSkipped) /\
    (t_state t' = TCompleted \/ t_state t' = TSkipped))).

(** A newly stored task. *)
Definition task_new (o : origin) (t : task) : Prop :=
  t_job t = job_of o /\ (t_state t = TPending \/ t_state t = TCreated \/ t_state t = TFailed) /\
  t_progress t = 0.
(** A newly stored job. *)
Definition job_new (j : job) : Prop :=
  j_state j = JPending /\ j_position j = 0 /\ j_progress j = 0 /\ j_result j = "" /\ j_error j = "" /\
  j_completed j = None /\ j_deleteat j = None /\ c_tasks (j_context j) = [].

(* ------------------------------------------------------------------ *)
(** * Well-formed stores and messages *)

(** retry accounting: never more attempts than the limit (a negative limit, possible in a sub-job, allows none) *)
Definition retry_ok (r : option retry) : Prop :=
  match r with Some r => 0 <= r_attempts r <= Z.max 0 (r_limit r) | None => True end.

Definition task_ok (t : task) : Prop :=
  retry_ok (t_retry t) /\ 0 <= t_redelivered t <= 5 /\
  match t_parallel t with Some p => Forall pristine (p_tasks p) | None => True end /\
  match t_each t with Some e => pristine (e_task e) | None => True end /\
  match t_subjob t with Some s => Forall pristine (s_tasks s) | None => True end.

Definition job_ok (j : job) : Prop :=
  Forall pristine (j_tasks j) /\ defaults_ok (j_defaults j) /\ j_taskcount j = Z.of_nat (length (j_tasks j)) /\
  j_state j <> JRestart /\ (j_state j <> JPending -> 1 <= j_position j) /\ 0 <= j_position j.

Definition is_some {A} (x : option A) : bool := match x with Some _ => true | None => false end.
Definition composite (t : task) : bool := (is_some (t_parallel t) || is_some (t_each t))%bool.

(** [t] (a message, or a row read earlier) is about the stored row [u]. *)
Definition about (t u : task) : Prop :=
  t_id u = t_id t /\ t_job u = t_job t /\ t_parent u = t_parent t /\ t_position u = t_position t /\
  is_some (t_parallel u) = is_some (t_parallel t) /\ is_some (t_each u) = is_some (t_each t) /\
  is_some (t_subjob u) = is_some (t_subjob t).
Definition task_known (w : world) (t : task) : Prop := exists u, find_task (t_id t) w = Some u /\ about t u.
Definition job_known (w : world) (j : job) : Prop :=
  exists u, find_job (j_id j) w = Some u /\ jdef u = jdef j.

(** A task with a parent has a stored composite parent, created earlier, in the same job. *)
Definition parent_known (w : world) (t : task) : Prop :=
  t_parent t <> noid ->
  (t_parent t < t_id t)%N /\
  exists p, find_task (t_parent t) w = Some p /\ t_job p = t_job t /\ composite p = true.
Definition job_parent_known (w : world) (j : job) : Prop :=
  j_parent j <> noid -> exists p, find_task (j_parent j) w = Some p /\ is_some (t_subjob p) = true.

Definition msg_ok (w : world) (m : msg) : Prop :=
  match m with
  | MTask _ t | MProgress t => task_ok t /\ task_known w t
  | MJob j =>
      job_known w j /\ Forall pristine (j_tasks j) /\
      (j_state j = JPending \/ j_state j = JCancelled \/
       (j_state j = JRestart /\ 1 <= j_position j <= Z.of_nat (length (j_tasks j))))
  | MEvent tp j =>
      job_known w j /\ j_parent j = noid /\
      ((tp = "job.completed" /\ j_state j = JCompleted) \/ (tp = "job.failed" /\ j_state j = JFailed))
  | MHeartbeat n => String.prefix QUEUE_EXCLUSIVE_PREFIX (n_queue n) = true
  end.

(** The invariant of the store and the message history. *)
Record Inv (w : world) : Prop := {
  inv_task_ids : NoDup (map t_id (w_tasks w));
  inv_job_ids : NoDup (map j_id (w_jobs w));
  inv_fresh : (0 < w_fresh w)%N;
  inv_task_fresh : forall t, In t (w_tasks w) -> (0 < t_id t < w_fresh w)%N;
  inv_job_fresh : forall j, In j (w_jobs w) -> (0 < j_id j < w_fresh w)%N;
  inv_tasks : forall t, In t (w_tasks w) -> task_ok t /\ t_redelivered t = 0 /\ parent_known w t /\
                        exists j, find_job (t_job t) w = Some j;
  inv_jobs : forall j, In j (w_jobs w) -> job_ok j /\ job_parent_known w j;
  inv_nodes : forall n, In n (w_nodes w) -> String.prefix QUEUE_EXCLUSIVE_PREFIX (n_queue n) = true;
  inv_hist : forall m, In m (w_hist w) -> msg_ok w m;
  inv_auto : w_auto w = []
}.
