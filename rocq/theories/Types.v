(** Data types of tork: direct transcription of the Go structs.

    Conventions
    - An ID (Go string, UUID) is an [N]; the empty string "" is [0].
    - [*T] is [option T]; [map[string]string] is an association list
      (nil and empty maps are identified); [[]T] is [list T].
    - [time.Time] is [Z] (nanoseconds); [*time.Time] is [option Z].
    - Go [int] is [Z] (unbounded; no arithmetic modelled here gets near 2^63).
    - Progress ([float64], a percentage) is a [Z] in units of 1/100 percent. *)
From Coq Require Export String List ZArith NArith Bool Lia.
From RecordUpdate Require Export RecordSet.
Export RecordSetNotations.
Export ListNotations.
Open Scope Z_scope.

Definition id := N.
Definition noid : id := 0%N.
Definition is_noid (i : id) : bool := N.eqb i 0%N.
Definition smap := list (string * string).
Definition time := Z.

(** task.go:12-24 *)
Inductive tstate :=
| TCreated | TPending | TScheduled | TRunning | TCancelled
| TStopped | TCompleted | TFailed | TSkipped.

(** job.go:9-19. [JRestart] only ever occurs in messages. *)
Inductive jstate :=
| JPending | JScheduled | JRunning | JCancelled | JCompleted | JFailed | JRestart.

Definition tstate_eqb (a b : tstate) : bool :=
  match a, b with
  | TCreated, TCreated | TPending, TPending | TScheduled, TScheduled
  | TRunning, TRunning | TCancelled, TCancelled | TStopped, TStopped
  | TCompleted, TCompleted | TFailed, TFailed | TSkipped, TSkipped => true
  | _, _ => false
  end.

Definition jstate_eqb (a b : jstate) : bool :=
  match a, b with
  | JPending, JPending | JScheduled, JScheduled | JRunning, JRunning
  | JCancelled, JCancelled | JCompleted, JCompleted | JFailed, JFailed
  | JRestart, JRestart => true
  | _, _ => false
  end.

(** task.go:26-31,155-157 *)
Definition active (s : tstate) : bool :=
  match s with
  | TCreated | TPending | TScheduled | TRunning => true
  | _ => false
  end.

(** task.go:134-142 *)
Record retry := mkRetry { r_limit : Z; r_attempts : Z }.
Record limits := mkLimits { l_cpus : string; l_memory : string }.
(** task.go:144-153 *)
Record registry := mkRegistry { rg_username : string; rg_password : string }.
Record probe := mkProbe { pb_path : string; pb_port : Z; pb_timeout : string }.
(** mount.go:11-17 *)
Record mount := mkMount { m_id : string; m_type : string; m_source : string; m_target : string; m_opts : smap }.
(** job.go:147-152 *)
Record webhook := mkWebhook { wh_url : string; wh_headers : smap; wh_event : string; wh_if : string }.
(** job.go:128-130 *)
Record autodelete := mkAutoDelete { ad_after : string }.

(** task.go:119-132,106-117, over the task type [T]. *)
Record parallelT (T : Type) := mkParallel { p_tasks : list T; p_completions : Z }.
Record eachT (T : Type) := mkEach {
  e_var : string; e_list : string; e_task : T; e_size : Z;
  e_completions : Z; e_concurrency : Z; e_index : Z }.
Record subjobT (T : Type) := mkSubJob {
  s_id : id; s_name : string; s_description : string; s_tasks : list T;
  s_inputs : smap; s_secrets : smap; s_autodelete : option autodelete;
  s_output : string; s_detached : bool; s_webhooks : list webhook }.
Arguments mkParallel {T}. Arguments p_tasks {T}. Arguments p_completions {T}.
Arguments mkEach {T}. Arguments e_var {T}. Arguments e_list {T}. Arguments e_task {T}.
Arguments e_size {T}. Arguments e_completions {T}. Arguments e_concurrency {T}. Arguments e_index {T}.
Arguments mkSubJob {T}. Arguments s_id {T}. Arguments s_name {T}. Arguments s_description {T}.
Arguments s_tasks {T}. Arguments s_inputs {T}. Arguments s_secrets {T}. Arguments s_autodelete {T}.
Arguments s_output {T}. Arguments s_detached {T}. Arguments s_webhooks {T}.

(** task.go:34-78 *)
Inductive task := mkTask {
  t_id : id;
  t_job : id;
  t_parent : id;
  t_position : Z;
  t_name : string;
  t_description : string;
  t_state : tstate;
  t_created : option time;
  t_scheduled : option time;
  t_started : option time;
  t_completed : option time;
  t_failed : option time;
  t_cmd : list string;
  t_entrypoint : list string;
  t_run : string;
  t_image : string;
  t_registry : option registry;
  t_env : smap;
  t_files : smap;
  t_queue : string;
  t_redelivered : Z;
  t_error : string;
  t_pre : list task;
  t_post : list task;
  t_sidecars : list task;
  t_mounts : list mount;
  t_networks : list string;
  t_node : id;
  t_retry : option retry;
  t_limits : option limits;
  t_timeout : string;
  t_result : string;
  t_var : string;
  t_if : string;
  t_parallel : option (parallelT task);
  t_each : option (eachT task);
  t_subjob : option (subjobT task);
  t_gpus : string;
  t_tags : list string;
  t_workdir : string;
  t_priority : Z;
  t_progress : Z;
  t_probe : option probe }.

(** user.go, role.go; job.go:123-126 *)
Record role := mkRole { ro_id : id; ro_slug : string; ro_name : string; ro_created : option time }.
Record user := mkUser {
  u_id : id; u_name : string; u_username : string; u_passhash : string; u_password : string;
  u_created : option time; u_disabled : bool }.
Record permission := mkPermission { pm_role : option role; pm_user : option user }.

(** job.go:132-145 *)
Record jobctx := mkCtx { c_job : smap; c_inputs : smap; c_secrets : smap; c_tasks : smap }.
Record jobdefaults := mkDefaults {
  d_retry : option retry; d_limits : option limits; d_timeout : string; d_queue : string; d_priority : Z }.
(** job.go:78-81 *)
Record jobschedule := mkSchedule { sc_id : id; sc_cron : string }.

(** job.go:28-57 *)
Record job := mkJob {
  j_id : id;
  j_parent : id;
  j_name : string;
  j_description : string;
  j_tags : list string;
  j_state : jstate;
  j_created : time;
  j_createdby : option user;
  j_started : option time;
  j_completed : option time;
  j_failed : option time;
  j_tasks : list task;
  j_execution : list task;
  j_position : Z;
  j_inputs : smap;
  j_context : jobctx;
  j_taskcount : Z;
  j_output : string;
  j_result : string;
  j_error : string;
  j_defaults : option jobdefaults;
  j_webhooks : list webhook;
  j_permissions : list permission;
  j_autodelete : option autodelete;
  j_deleteat : option time;
  j_secrets : smap;
  j_progress : Z;
  j_schedule : option jobschedule }.

(** node.go:10-30 *)
Inductive nstatus := NUp | NDown | NOffline.
Record node := mkNode {
  n_id : id; n_name : string; n_started : time; n_cpu : Z; n_heartbeat : time;
  n_queue : string; n_status : nstatus; n_hostname : string; n_port : Z;
  n_taskcount : Z; n_version : string }.

#[export] Instance eta_retry : Settable _ := settable! mkRetry <r_limit; r_attempts>.
#[export] Instance eta_limits : Settable _ := settable! mkLimits <l_cpus; l_memory>.
#[export] Instance eta_registry : Settable _ := settable! mkRegistry <rg_username; rg_password>.
#[export] Instance eta_mount : Settable _ := settable! mkMount <m_id; m_type; m_source; m_target; m_opts>.
#[export] Instance eta_webhook : Settable _ := settable! mkWebhook <wh_url; wh_headers; wh_event; wh_if>.
#[export] Instance eta_parallel T : Settable (parallelT T) := settable! (@mkParallel T) <p_tasks; p_completions>.
#[export] Instance eta_each T : Settable (eachT T) := settable! (@mkEach T)
  <e_var; e_list; e_task; e_size; e_completions; e_concurrency; e_index>.
#[export] Instance eta_subjob T : Settable (subjobT T) := settable! (@mkSubJob T)
  <s_id; s_name; s_description; s_tasks; s_inputs; s_secrets; s_autodelete; s_output; s_detached; s_webhooks>.
#[export] Instance eta_task : Settable task := settable! mkTask
  <t_id; t_job; t_parent; t_position; t_name; t_description; t_state; t_created; t_scheduled;
   t_started; t_completed; t_failed; t_cmd; t_entrypoint; t_run; t_image; t_registry; t_env; t_files;
   t_queue; t_redelivered; t_error; t_pre; t_post; t_sidecars; t_mounts; t_networks; t_node; t_retry;
   t_limits; t_timeout; t_result; t_var; t_if; t_parallel; t_each; t_subjob; t_gpus; t_tags; t_workdir;
   t_priority; t_progress; t_probe>.
#[export] Instance eta_ctx : Settable _ := settable! mkCtx <c_job; c_inputs; c_secrets; c_tasks>.
#[export] Instance eta_job : Settable job := settable! mkJob
  <j_id; j_parent; j_name; j_description; j_tags; j_state; j_created; j_createdby; j_started; j_completed;
   j_failed; j_tasks; j_execution; j_position; j_inputs; j_context; j_taskcount; j_output; j_result; j_error;
   j_defaults; j_webhooks; j_permissions; j_autodelete; j_deleteat; j_secrets; j_progress; j_schedule>.
#[export] Instance eta_node : Settable _ := settable! mkNode
  <n_id; n_name; n_started; n_cpu; n_heartbeat; n_queue; n_status; n_hostname; n_port; n_taskcount; n_version>.

