(** The coordinator: scheduler, message handlers, queue wrappers, API job endpoints.
    Definitions only; every definition cites the Go source it transcribes
    (paths relative to /repo/internal/coordinator unless stated otherwise).
    Error texts are abbreviated; logging and middleware are not modelled here
    (middleware chains: Middleware.v). *)
From Verif Require Export World Eval Clone.
Open Scope string_scope.
Open Scope list_scope.
Open Scope Z_scope.

(** broker/queues.go:9-40 *)
Definition QUEUE_PENDING := "pending".
Definition QUEUE_STARTED := "started".
Definition QUEUE_COMPLETED := "completed".
Definition QUEUE_ERROR := "error".
Definition QUEUE_DEFAULT := "default".
Definition QUEUE_HEARTBEAT := "heartbeat".
Definition QUEUE_JOBS := "jobs".
Definition QUEUE_LOGS := "logs".
Definition QUEUE_PROGRESS := "progress".
Definition QUEUE_REDELIVERIES := "redeliveries".
(** broker/broker.go:84-87 *)
Definition TOPIC_JOB_COMPLETED := "job.completed".
Definition TOPIC_JOB_FAILED := "job.failed".

(** broker/queues.go:49-62 *)
Definition is_coordinator_queue (q : string) : bool :=
  existsb (String.eqb q)
    [QUEUE_PENDING; QUEUE_STARTED; QUEUE_COMPLETED; QUEUE_ERROR; QUEUE_HEARTBEAT;
     QUEUE_JOBS; QUEUE_LOGS; QUEUE_PROGRESS; QUEUE_REDELIVERIES].

Definition QUEUE_EXCLUSIVE_PREFIX := "x-".
(** broker/queues.go:68-70 *)
Definition is_task_queue (q : string) : bool :=
  (negb (is_coordinator_queue q) && negb (String.prefix QUEUE_EXCLUSIVE_PREFIX q))%bool.

Definition nonempty (s : string) : bool := negb (is_empty s).
Definition orelse (s d : string) : string := if is_empty s then d else s.
Definition has_id (i : id) : bool := negb (is_noid i).
Definition job_live (s : jstate) : bool :=
  match s with JRunning | JScheduled => true | _ => false end.

Section Coordinator.
Variable O : oracle.

(* ------------------------------------------------------------------ *)
(** * Scheduler *)

(** scheduler/scheduler.go:37-78: job-level defaults, then the default queue. *)
Definition apply_defaults (j : job) (t : task) : task :=
  let t1 :=
    match j_defaults j with
    | None => t
    | Some d =>
        let t := t <| t_queue := orelse (t_queue t) (d_queue d) |> in
        let t := match d_limits d with
                 | None => t
                 | Some dl =>
                     let l := match t_limits t with Some l => l | None => mkLimits "" "" end in
                     t <| t_limits := Some (mkLimits (orelse (l_cpus l) (l_cpus dl)) (orelse (l_memory l) (l_memory dl))) |>
                 end in
        let t := t <| t_timeout := orelse (t_timeout t) (d_timeout d) |> in
        let t := match d_retry d with
                 | None => t
                 | Some dr =>
                     let r := match t_retry t with Some r => r | None => mkRetry 0 0 end in
                     t <| t_retry := Some (if r_limit r =? 0 then r <| r_limit := r_limit dr |> else r) |>
                 end in
        if t_priority t =? 0 then t <| t_priority := d_priority d |> else t
    end in
  t1 <| t_queue := orelse (t_queue t1) QUEUE_DEFAULT |>.

(** scheduler/scheduler.go:37-93 *)
Definition schedule_regular (t : task) : prog unit :=
  let* n := now in
  let* j := get_job (t_job t) in
  let t' := (apply_defaults j t) <| t_state := TScheduled |> <| t_scheduled := Some n |> in
  with_msg t' (
    update_task (t_id t) (modi (fun u =>
      u <| t_state := t_state t' |> <| t_scheduled := t_scheduled t' |> <| t_queue := t_queue t' |>
        <| t_limits := t_limits t' |> <| t_timeout := t_timeout t' |> <| t_retry := t_retry t' |>
        <| t_priority := t_priority t' |>)) ;;;
    publish_task (t_queue t') t').

(** The closures at scheduler.go:129-135 and 173-179; [u.SubJob.ID = ...] on a nil SubJob panics. *)
Definition mark_subjob_running (n : time) (sid : id) (u : task) : outcome (task * unit) :=
  match t_subjob u with
  | None => Panic
  | Some s => Ok (u <| t_state := TRunning |> <| t_scheduled := Some n |> <| t_started := Some n |>
                    <| t_subjob := Some (s <| s_id := sid |>) |>, tt)
  end.

(** The sub-job literals at scheduler.go:108-128 (attached) and 150-166 (detached). *)
Definition make_subjob (pj : job) (t : task) (s : subjobT task) (n : time) (sid : id) (attached : bool) : job :=
  mkJob sid (if attached then t_id t else noid) (s_name s) (s_description s) [] JPending n (j_createdby pj)
    None None None (s_tasks s) [] 0 (s_inputs s)
    (mkCtx [] (s_inputs s) (if attached then s_secrets s else []) [])
    (Z.of_nat (length (s_tasks s))) (s_output s) "" "" None (s_webhooks s) (j_permissions pj)
    (s_autodelete s) None (s_secrets s) 0 None.

(** scheduler/scheduler.go:102-142 *)
Definition schedule_attached (t : task) (s : subjobT task) : prog unit :=
  let* j := get_job (t_job t) in
  let* n := now in
  let* sid := new_id in
  let sj := make_subjob j t s n sid true in
  update_task (t_id t) (mark_subjob_running n sid) ;;;
  create_job sj ;;;
  publish_job sj.

(** scheduler/scheduler.go:144-185 *)
Definition schedule_detached (t : task) (s : subjobT task) : prog unit :=
  let* j := get_job (t_job t) in
  let* n := now in
  let* sid := new_id in
  let sj := make_subjob j t s n sid false in
  create_job sj ;;;
  publish_job sj ;;;
  update_task (t_id t) (mark_subjob_running n sid) ;;;
  let t' := t <| t_completed := Some n |> <| t_state := TCompleted |> in
  with_msg t' (publish_task QUEUE_COMPLETED t').

(** The closure at scheduler.go:213-220. *)
Definition mark_each_running (n : time) (size : Z) (u : task) : outcome (task * unit) :=
  match t_each u with
  | None => Panic
  | Some e => Ok (u <| t_state := TRunning |> <| t_scheduled := Some n |> <| t_started := Some n |>
                    <| t_each := Some (e <| e_size := size |> <| e_index := e_concurrency e |>) |>, tt)
  end.

Definition each_fired (e : eachT task) (ix : Z) : bool :=
  ((e_concurrency e =? 0) || (ix <? e_concurrency e))%bool.

(** scheduler/scheduler.go:223-263: one child per element.  [def] is t.Each.Task: the evaluation of
    each child writes through the command slices it shares with it (see [write_cmds]). *)
Fixpoint each_children (t : task) (e : eachT task) (j : job) (n : time) (def : task) (ix : Z) (l : list (o_val O)) : prog unit :=
  match l with
  | [] => ret tt
  | x :: r =>
      let* i := new_id in
      let et := (clone_task def)
                  <| t_id := i |> <| t_job := j_id j |>
                  <| t_state := if each_fired e ix then TPending else TCreated |>
                  <| t_position := t_position t |> <| t_created := Some n |> <| t_parent := t_id t |> in
      match evaluate_each_task O et (j_context j) (orelse (e_var e) "item") ix x with
      | inr err => publish_task QUEUE_ERROR (t <| t_error := err |> <| t_state := TFailed |>)
      | inl et' =>
          create_task et' ;;;
          (if each_fired e ix then publish_task QUEUE_PENDING et' else ret tt) ;;;
          each_children t e j n (write_cmds def et') (ix + 1) r
      end
  end.

(** scheduler/scheduler.go:187-264 *)
Definition schedule_each (t : task) (e : eachT task) : prog unit :=
  let* n := now in
  let* j := get_job (t_job t) in
  match o_list O (j_context j) (e_list e) with
  | inr err => publish_task QUEUE_ERROR (t <| t_error := err |> <| t_state := TFailed |>)
  | inl None => publish_task QUEUE_ERROR
                  (t <| t_error := "each.list does not evaluate to a list" |> <| t_state := TFailed |>)
  | inl (Some l) =>
      update_task (t_id t) (mark_each_running n (Z.of_nat (length l))) ;;;
      each_children t e j n (e_task e) 0 l
  end.

(** scheduler/scheduler.go:283-301.  The children are mutated in place inside t.Parallel;
    an error message published for [t] in the middle carries them, which nothing reads. *)
Fixpoint parallel_children (t : task) (j : job) (n : time) (l : list task) : prog unit :=
  match l with
  | [] => ret tt
  | p :: r =>
      let* i := new_id in
      let pt := p <| t_id := i |> <| t_job := j_id j |> <| t_state := TPending |>
                  <| t_position := t_position t |> <| t_created := Some n |> <| t_parent := t_id t |> in
      match evaluate_task O pt (j_context j) with
      | inr err => publish_task QUEUE_ERROR (t <| t_error := err |> <| t_state := TFailed |>)
      | inl pt' =>
          create_task pt' ;;;
          publish_task QUEUE_PENDING pt' ;;;
          parallel_children t j n r
      end
  end.

(** scheduler/scheduler.go:266-303 *)
Definition schedule_parallel (t : task) (p : parallelT task) : prog unit :=
  let* n := now in
  update_task (t_id t) (modi (fun u =>
    u <| t_state := TRunning |> <| t_scheduled := Some n |> <| t_started := Some n |>)) ;;;
  let* j := get_job (t_job t) in
  parallel_children t j n (p_tasks p).

(** scheduler/scheduler.go:26-35,95-100 *)
Definition schedule_task (t : task) : prog unit :=
  match t_parallel t with
  | Some p => schedule_parallel t p
  | None =>
      match t_each t with
      | Some e => schedule_each t e
      | None =>
          match t_subjob t with
          | Some s => if s_detached s then schedule_detached t s else schedule_attached t s
          | None => schedule_regular t
          end
      end
  end.

(* ------------------------------------------------------------------ *)
(** * Pending handler: handlers/pending.go *)

(** handlers/pending.go:43-58 *)
Definition skip_task (t : task) : prog unit :=
  let* n := now in
  let t' := t <| t_state := TSkipped |> <| t_scheduled := Some n |> <| t_started := Some n |> <| t_completed := Some n |> in
  with_msg t' (
    update_task (t_id t) (modi (fun u =>
      u <| t_state := TSkipped |> <| t_scheduled := Some n |> <| t_started := Some n |>)) ;;;
    publish_task QUEUE_COMPLETED t').

(** handlers/pending.go:32-41 *)
Definition pending_handler (t : task) : prog unit :=
  if String.eqb (trim_space (t_if t)) "false" then skip_task t else schedule_task t.

(* ------------------------------------------------------------------ *)
(** * Cancellation: handlers/cancel.go *)

(** handlers/cancel.go:62-101 *)
Fixpoint cancel_tasks (l : list task) : prog unit :=
  match l with
  | [] => ret tt
  | t :: r =>
      let t' := t <| t_state := TCancelled |> in
      update_task (t_id t) (modi (fun u => u <| t_state := TCancelled |>)) ;;;
      (match t_subjob t with
       | Some s =>
           if has_id (s_id s) then
             let* sj := get_job (s_id s) in
             publish_job (sj <| j_state := JCancelled |>)
           else if has_id (t_node t) then
             let* n := get_node (t_node t) in publish_task (n_queue n) t'
           else ret tt
       | None =>
           if has_id (t_node t) then
             let* n := get_node (t_node t) in publish_task (n_queue n) t'
           else ret tt
       end) ;;;
      cancel_tasks r
  end.
Definition cancel_active_tasks (jid : id) : prog unit :=
  let* l := get_active jid in cancel_tasks l.

(** handlers/cancel.go:27-60.  On a failing lookup of the parent task/job the error message
    dereferences a nil pointer (lines 43 and 47): a panic. *)
Definition cancel_handler (j : job) : prog unit :=
  update_job (j_id j) (modi (fun u =>
    if job_live (j_state u) then u <| j_state := JCancelled |> else u)) ;;;
  (if has_id (j_parent j) then
     let* pt := catch (get_task (j_parent j)) (fun _ _ => panic) in
     let* pj := catch (get_job (t_job pt)) (fun _ _ => panic) in
     catch (publish_job (pj <| j_state := JCancelled |>)) (fun _ _ => ret tt)
   else ret tt) ;;;
  cancel_active_tasks (j_id j).

(* ------------------------------------------------------------------ *)
(** * Job handler: handlers/job.go *)

(** handlers/job.go:198-237 *)
Definition fail_job (j : job) : prog unit :=
  update_job (j_id j) (modi (fun u =>
    if job_live (j_state u) then u <| j_state := JFailed |> <| j_failed := j_failed j |> else u)) ;;;
  if has_id (j_parent j) then
    let* pt := get_task (j_parent j) in
    publish_task QUEUE_ERROR (pt <| t_state := TFailed |> <| t_failed := j_failed j |> <| t_error := j_error j |>)
  else
    cancel_active_tasks (j_id j) ;;;
    let* j' := get_job (j_id j) in
    if jstate_eqb (j_state j') JFailed then publish_event TOPIC_JOB_FAILED j' else ret tt.

(** A fresh instance of a job's task: job.go:60-70, job.go:181-191, completed.go:240-250. *)
Definition instantiate (j : job) (t : task) (pos : Z) (i : id) (n : time) : task :=
  let t1 := t <| t_id := i |> <| t_job := j_id j |> <| t_state := TPending |>
              <| t_position := pos |> <| t_created := Some n |> in
  match evaluate_task O t1 (j_context j) with
  | inl t2 => t2
  | inr e => t1 <| t_error := e |> <| t_state := TFailed |> <| t_failed := Some n |>
  end.

(** handlers/job.go:57-91. [j.Tasks[0]] panics on an empty task list. *)
Definition start_job (j : job) : prog unit :=
  match j_tasks j with
  | [] => panic
  | t0 :: _ =>
      let* n := now in
      let* i := new_id in
      let t := instantiate j t0 1 i n in
      create_task t ;;;
      let* n2 := now in
      update_job (j_id j) (modi (fun u =>
        u <| j_state := JScheduled |> <| j_started := Some n2 |> <| j_position := 1 |>)) ;;;
      if tstate_eqb (t_state t) TFailed then
        let* n3 := now in
        fail_job (j <| j_failed := Some n3 |> <| j_state := JFailed |> <| j_error := t_error t |>)
      else pending_handler t
  end.

(** handlers/job.go:95-126: the closure; its captured results are the new state, error,
    result and deletion time of [j]. *)
Definition complete_job_modify (j : job) (n : time) (u : job) : outcome (job * job) :=
  if job_live (j_state u) then
    match o_tmpl O (j_context j) None (j_output j) with
    | inr e =>
        Ok (u <| j_state := JFailed |> <| j_failed := Some n |> <| j_error := e |>,
            j <| j_state := JFailed |> <| j_error := e |>)
    | inl r =>
        let u' := u <| j_state := JCompleted |> <| j_completed := Some n |> <| j_result := r |> in
        let j' := j <| j_state := JCompleted |> <| j_result := r |> in
        match j_autodelete j with
        | Some a =>
            if nonempty (ad_after a) then
              match o_dur O (ad_after a) with
              | Some d => Ok (u' <| j_deleteat := Some (n + d) |>, j' <| j_deleteat := Some (n + d) |>)
              | None => Ok (u', j')
              end
            else Ok (u', j')
        | None => Ok (u', j')
        end
    end
  else Err "job can not be completed" None.

(** handlers/job.go:93-154 *)
Definition complete_job (j : job) : prog unit :=
  let* n := now in
  let* j' := update_job (j_id j) (complete_job_modify j n) in
  if has_id (j_parent j) then
    let* pt := get_task (j_parent j) in
    let* n2 := now in
    if jstate_eqb (j_state j') JFailed
    then publish_task QUEUE_COMPLETED (pt <| t_state := TFailed |> <| t_failed := Some n2 |> <| t_error := j_error j' |>)
    else publish_task QUEUE_COMPLETED (pt <| t_state := TCompleted |> <| t_completed := Some n2 |> <| t_result := j_result j' |>)
  else
    if jstate_eqb (j_state j') JFailed then publish_event TOPIC_JOB_FAILED j' else publish_event TOPIC_JOB_COMPLETED j'.

(** handlers/job.go:156-165 *)
Definition mark_running (j : job) : prog unit :=
  update_job (j_id j) (modi (fun u =>
    if jstate_eqb (j_state u) JScheduled then u <| j_state := JRunning |> <| j_failed := None |> else u)).

(** Go slice indexing with an int: [None] is the index-out-of-range panic. *)
Definition nth_task (l : list task) (i : Z) : option task :=
  if i <? 0 then None else nth_error l (Z.to_nat i).

(** handlers/job.go:167-196 *)
Definition restart_job (j : job) : prog unit :=
  update_job (j_id j) (fun u =>
    match j_state u with
    | JFailed | JCancelled => Ok (u <| j_state := JRunning |> <| j_failed := None |>, tt)
    | _ => Err "job can't be restarted" None
    end) ;;;
  let* n := now in
  match nth_task (j_tasks j) (j_position j - 1) with
  | None => panic
  | Some t0 =>
      let* i := new_id in
      let t := instantiate j t0 (j_position j) i n in
      create_task t ;;;
      publish_task QUEUE_PENDING t
  end.

(** handlers/job.go:35-55, for the event StateChange (Progress events do nothing: 36-38). *)
Definition job_handler (j : job) : prog unit :=
  match j_state j with
  | JPending => start_job j
  | JCancelled => cancel_handler j
  | JRestart => restart_job j
  | JCompleted => complete_job j
  | JFailed => fail_job j
  | JRunning => mark_running j
  | JScheduled => fail "invalid job state"
  end.

(* ------------------------------------------------------------------ *)
(** * Error handler: handlers/error.go *)

(** handlers/error.go:59-61 *)
Definition retry_left (t : task) : bool :=
  match t_retry t with Some r => r_attempts r <? r_limit r | None => false end.

(** handlers/error.go:64-70 *)
Definition retry_task (t : task) (i : id) (n : time) : task :=
  let rt := clone_task t in
  rt <| t_id := i |> <| t_created := Some n |>
     <| t_retry := match t_retry rt with Some r => Some (r <| r_attempts := r_attempts r + 1 |>) | None => None end |>
     <| t_state := TPending |> <| t_error := "" |> <| t_failed := None |>.

(** handlers/error.go:33-87 *)
Definition error_handler (t : task) : prog unit :=
  let* j := get_job (t_job t) in
  let* n := now in
  let t := t <| t_failed := Some n |> in
  with_msg t (
    update_task (t_id t) (modi (fun u =>
      if active (t_state u)
      then u <| t_state := TFailed |> <| t_failed := t_failed t |> <| t_error := t_error t |>
      else u)) ;;;
    if (job_live (j_state j) && retry_left t)%bool then
      let* n2 := now in
      let* i := new_id in
      match evaluate_task O (retry_task t i n2) (j_context j) with
      | inr e => fail e
      | inl rt =>
          create_task rt ;;;
          catch (publish_task QUEUE_PENDING rt) (fun _ _ => ret tt)
      end
    else
      job_handler (j <| j_state := JFailed |> <| j_failed := t_failed t |> <| j_error := t_error t |>)).

(* ------------------------------------------------------------------ *)
(** * Completed handler: handlers/completed.go *)

(** handlers/completed.go:66-76, 139-149, 195-205 *)
Definition completable (s : tstate) : bool :=
  match s with TRunning | TScheduled | TSkipped => true | _ => false end.
Definition complete_modify (t : task) (u : task) : outcome (task * unit) :=
  if completable (t_state u)
  then Ok (u <| t_state := t_state t |> <| t_completed := t_completed t |> <| t_result := t_result t |>, tt)
  else Err "can't complete task" None.

(** handlers/completed.go:105-115, 161-171, 215-220: the job context. *)
Definition ctx_put (t : task) (c : jobctx) : jobctx :=
  if (nonempty (t_result t) && nonempty (t_var t))%bool
  then c <| c_tasks := smap_set (t_var t) (t_result t) (c_tasks c) |>
  else c.
Definition a_put_context (t : task) : act unit :=
  if (nonempty (t_result t) && nonempty (t_var t))%bool
  then a_update_job (t_job t) (modi (fun u => u <| j_context := ctx_put t (j_context u) |>))
  else aret tt.

(** The row [i] is written through the outer datastore handle, i.e. outside the transaction. *)
Definition a_mark_auto (i : id) : act unit := fun w => (w <| w_auto := i :: w_auto w |>, Ok tt).

(** handlers/completed.go:83-98: release the next CREATED child. *)
Definition a_release_next (pid : id) : act unit :=
  abind (a_get_next pid) (fun nx =>
  abind (a_update_task (t_id nx) (modi (fun nu => nu <| t_state := TPending |>))) (fun _ =>
  abind (a_mark_auto (t_id nx)) (fun _ =>
  a_publish (MTask QUEUE_PENDING (nx <| t_state := TPending |>))))).

(** handlers/completed.go:80-101: the parent's row; result: isLast. *)
Definition a_bump_each (pid : id) : act bool := faulty (fun w =>
  match find_task pid w with
  | None => (w, Err "error fetching task from db" None)
  | Some u =>
      match t_each u with
      | None => (w, Panic)
      | Some e =>
          let c := e_completions e + 1 in
          let last := e_size e <=? c in
          let rel := (negb last && (0 <? e_concurrency e) && (e_index e <? e_size e))%bool in
          match (if rel then a_release_next (t_id u) else aret tt) w with
          | (w1, Ok _) =>
              (w1 <| w_tasks := put_task (u <| t_each := Some (e <| e_completions := c |> <| e_index := e_index e + 1 |>) |>)
                                         (w_tasks w1) |>, Ok last)
          | (w1, Err er m) => (w1, Err er m)
          | (w1, Panic) => (w1, Panic)
          | (w1, OutOfFuel) => (w1, OutOfFuel)
          end
      end
  end).

(** handlers/completed.go:153-159 *)
Definition bump_parallel (u : task) : outcome (task * bool) :=
  match t_parallel u with
  | None => Panic
  | Some p =>
      let c := p_completions p + 1 in
      Ok (u <| t_parallel := Some (p <| p_completions := c |>) |>, Z.of_nat (length (p_tasks p)) <=? c)
  end.

(** handlers/completed.go:64-117 and 138-173 *)
Definition a_complete_each (t : task) : act bool :=
  abind (a_update_task (t_id t) (complete_modify t)) (fun _ =>
  abind (a_bump_each (t_parent t)) (fun last =>
  abind (a_put_context t) (fun _ => aret last))).
Definition a_complete_parallel (t : task) : act bool :=
  abind (a_update_task (t_id t) (complete_modify t)) (fun _ =>
  abind (a_update_task (t_parent t) bump_parallel) (fun last =>
  abind (a_put_context t) (fun _ => aret last))).

(** math.Round(100*x)/100 in units of 1/100: round half away from zero of a/b, b > 0. *)
Definition round_div (a b : Z) : Z :=
  if 0 <=? a then (2 * a + b) / (2 * b) else - ((2 * (- a) + b) / (2 * b)).

(** handlers/completed.go:209-222.  A zero task count divides by zero (an infinite progress, which
    the numeric(5,2) column refuses): an error. *)
Definition advance_job (t : task) (u : job) : outcome (job * unit) :=
  if j_taskcount u =? 0 then Err "invalid progress" None
  else Ok (u <| j_progress := round_div (j_position u * 10000) (j_taskcount u) |>
             <| j_position := j_position u + 1 |>
             <| j_context := ctx_put t (j_context u) |>, tt).

(** handlers/completed.go:193-226 *)
Definition a_complete_top (t : task) : act unit :=
  abind (a_update_task (t_id t) (complete_modify t)) (fun _ =>
  a_update_job (t_job t) (advance_job t)).

(** handlers/completed.go:191-261 *)
Definition complete_top (t : task) : prog unit :=
  with_tx (a_complete_top t) ;;;
  let* j := get_job (t_job t) in
  let* n := now in
  if j_position j <=? Z.of_nat (length (j_tasks j)) then
    match nth_task (j_tasks j) (j_position j - 1) with
    | None => panic
    | Some t0 =>
        let* i := new_id in
        let nx := instantiate j t0 (j_position j) i n in
        create_task nx ;;;
        publish_task QUEUE_PENDING nx
    end
  else job_handler (j <| j_state := JCompleted |> <| j_completed := Some n |>).

(** handlers/completed.go:44-189.  [fuel] bounds the walk up the chain of parents. *)
Fixpoint complete_task (fuel : nat) (t : task) : prog unit :=
  if has_id (t_parent t) then
    match fuel with
    | 0%nat => Done OutOfFuel
    | S fuel' =>
        let* parent := get_task (t_parent t) in
        let* last := (match t_parallel parent with
                      | Some _ => with_tx (a_complete_parallel t)
                      | None => with_tx (a_complete_each t)
                      end) in
        if last : bool then
          let* parent' := get_task (t_parent t) in
          let* n := now in
          complete_task fuel' (parent' <| t_state := TCompleted |> <| t_completed := Some n |>)
        else ret tt
    end
  else complete_top t.

(** handlers/completed.go:35-42 *)
Definition completed_handler (fuel : nat) (t : task) : prog unit :=
  let* n := now in
  match t_state t with
  | TCompleted | TSkipped =>
      let t := t <| t_completed := Some n |> in
      with_msg t (complete_task fuel t)
  | _ => fail "invalid completion state"
  end.

(* ------------------------------------------------------------------ *)
(** * Started, progress, redelivered, heartbeat *)

(** handlers/started.go:30-77 *)
Definition started_handler (t : task) : prog unit :=
  let* j := get_job (t_job t) in
  if negb (job_live (j_state j)) then
    let t := t <| t_state := TCancelled |> in
    with_msg t (let* n := get_node (t_node t) in publish_task (n_queue n) t)
  else
    (if jstate_eqb (j_state j) JScheduled then job_handler (j <| j_state := JRunning |>) else ret tt) ;;;
    let* n := now in
    update_task (t_id t) (modi (fun u =>
      (if tstate_eqb (t_state u) TScheduled then u <| t_state := TRunning |> <| t_started := Some n |> else u)
      <| t_node := t_node t |>)).

(** handlers/progress.go:30-34, at the 1/100 percent resolution of the progress column *)
Definition clamp_progress (p : Z) : Z := if p <? 0 then 0 else if 10000 <? p then 10000 else p.

(** handlers/progress.go:46-52.  Both branches of the Go code are the same formula. *)
Definition job_progress (pos count p : Z) : Z := round_div ((pos - 1) * 10000 + p) count.

(** handlers/progress.go:28-60 *)
Definition progress_handler (t : task) : prog unit :=
  let t := t <| t_progress := clamp_progress (t_progress t) |> in
  with_msg t (
    update_task (t_id t) (modi (fun u => u <| t_progress := t_progress t |>)) ;;;
    let* j := get_job (t_job t) in
    if j_taskcount j =? 0 then fail "invalid progress"
    else
      let p := job_progress (j_position j) (j_taskcount j) (t_progress t) in
      update_job (t_job t) (modi (fun u => u <| j_progress := p |>))).

(** handlers/redelivered.go:14,29-45 *)
Definition max_redeliveries : Z := 5.
Definition redelivered_handler (t : task) : prog unit :=
  if max_redeliveries <=? t_redelivered t then
    let* n := now in
    publish_task QUEUE_ERROR
      (t <| t_error := "task redelivered too many times" |> <| t_failed := Some n |> <| t_state := TFailed |>)
  else
    publish_task (t_queue t) (t <| t_redelivered := t_redelivered t + 1 |>).

(** handlers/heartbeat.go:21-43; postgres.go:524-562 *)
Definition heartbeat_modify (n u : node) : node :=
  if n_heartbeat n <? n_heartbeat u then u
  else u <| n_heartbeat := n_heartbeat n |> <| n_cpu := n_cpu n |> <| n_status := n_status n |> <| n_taskcount := n_taskcount n |>.
Definition a_create_node (n : node) : act unit := faulty (fun w =>
  if existsb (fun u => N.eqb (n_id u) (n_id n)) (w_nodes w)
  then (w, Err "duplicate node id" None)
  else (w <| w_nodes := w_nodes w ++ [n] |>, Ok tt)).
Definition a_update_node (i : id) (f : node -> node) : act unit := faulty (fun w =>
  match find_node i w with
  | None => (w, Err "error fetching node from db" None)
  | Some u => (w <| w_nodes := put_node (f u) (w_nodes w) |>, Ok tt)
  end).
(** GetNodeByID's error is compared with ErrNodeNotFound only; any other error falls through to the update. *)
Definition a_node_known (i : id) : act bool := fun w =>
  match w_faults w with
  | true :: r => (w <| w_faults := r |>, Ok true)
  | false :: r => (w <| w_faults := r |>, Ok (match find_node i w with Some _ => true | None => false end))
  | [] => (w, Ok (match find_node i w with Some _ => true | None => false end))
  end.
Definition heartbeat_handler (n : node) : prog unit :=
  let* known := op (a_node_known (n_id n)) in
  if known : bool then op (a_update_node (n_id n) (heartbeat_modify n)) else op (a_create_node n).

(* ------------------------------------------------------------------ *)
(** * Queue wrappers: coordinator.go *)

(** coordinator.go:310-323 *)
Definition task_wrapper (h : task -> prog unit) (t : task) : prog unit :=
  catch (h t) (fun e m =>
    let t' := match m with Some t' => t' | None => t end in
    let* n := now in
    error_handler (t' <| t_failed := Some n |> <| t_state := TFailed |> <| t_error := e |>)).

(** coordinator.go:325-337.  Simplification: the job's Error is that of the message. *)
Definition job_wrapper (h : job -> prog unit) (j : job) : prog unit :=
  catch (h j) (fun _ _ =>
    let* n := now in
    job_handler (j <| j_failed := Some n |> <| j_state := JFailed |>)).

(** coordinator.go:238-293: what consuming a message does.  Messages on other queues
    are for workers (Worker.v). *)
Definition deliver (fuel : nat) (m : msg) : prog unit :=
  match m with
  | MTask q t =>
      if String.eqb q QUEUE_PENDING then task_wrapper pending_handler t
      else if String.eqb q QUEUE_COMPLETED then task_wrapper (completed_handler fuel) t
      else if String.eqb q QUEUE_STARTED then task_wrapper started_handler t
      else if String.eqb q QUEUE_ERROR then task_wrapper error_handler t
      else if String.eqb q QUEUE_REDELIVERIES then redelivered_handler t
      else ret tt
  | MJob j => job_wrapper job_handler j
  | MProgress t => task_wrapper progress_handler t
  | MHeartbeat n => heartbeat_handler n
  | MEvent _ _ => ret tt
  end.

(* ------------------------------------------------------------------ *)
(** * API endpoints on jobs: api/api.go *)

(** input/job.go:89-144 (ToJob) for an accepted definition [d] (validation: Validate.v): everything
    the user does not control is reset.  [c_job] holds the rendered id and name and is taken from [d]. *)
Definition new_job (i : id) (n : time) (d : job) : job :=
  mkJob i noid (j_name d) (j_description d) (j_tags d) JPending n (j_createdby d) None None None
    (j_tasks d) [] 0 (j_inputs d) (mkCtx (c_job (j_context d)) (j_inputs d) (j_secrets d) [])
    (Z.of_nat (length (j_tasks d))) (j_output d) "" "" (j_defaults d) (j_webhooks d) (j_permissions d)
    (j_autodelete d) None (j_secrets d) 0 None.

(** api.go:363-387 *)
Definition api_submit (d : job) : prog unit :=
  let* i := new_id in
  let* n := now in
  let j := new_job i n d in
  create_job j ;;; publish_job j.

(** api.go:837-853 *)
Definition api_cancel (i : id) : prog unit :=
  let* j := get_job i in
  if job_live (j_state j) then publish_job (j <| j_state := JCancelled |>) else fail "job is not running".

(** api.go:808-826 *)
Definition api_restart (i : id) : prog unit :=
  let* j := get_job i in
  match j_state j with
  | JFailed | JCancelled =>
      if Z.of_nat (length (j_tasks j)) <? j_position j then fail "job has no more tasks to run"
      else publish_job (j <| j_state := JRestart |>)
  | _ => fail "job can not be restarted"
  end.

End Coordinator.
