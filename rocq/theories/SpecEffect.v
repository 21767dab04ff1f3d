(** Specification vocabulary for what one operation of a coordinator may do to the store
    (C05, C06, C09, C11, C12, C13, C29, C30). Definitions only; no handler is mentioned. *)
From Verif Require Export SpecState SpecComplete.
Open Scope string_scope.
Open Scope list_scope.
Open Scope Z_scope.

(** completions recorded so far for a parallel or each task *)
Definition count_of (t : task) : Z :=
  match t_parallel t with
  | Some p => p_completions p
  | None => match t_each t with Some e => e_completions e | None => 0 end
  end.
(** how many it waits for *)
Definition width_of (t : task) : Z :=
  match t_parallel t with
  | Some p => Z.of_nat (length (p_tasks p))
  | None => match t_each t with Some e => e_size e | None => 0 end
  end.
(** retries used so far *)
Definition attempts_of (t : task) : Z := match t_retry t with Some r => r_attempts r | None => 0 end.
Definition limit_of (t : task) : Z := match t_retry t with Some r => r_limit r | None => 0 end.

(** a thread that schedules task [i] *)
Definition schedules (o : origin) (i : id) : Prop :=
  (from_queue QUEUE_PENDING o /\ task_of o = Some i) \/ from_job_msg JPending o.

(* ------------------------------------------------------------------ *)
(** * No completion *)

(** a row no completion was recorded for *)
Definition quiet_row (o : origin) (t t' : task) : Prop :=
  t_result t' = t_result t /\ t_completed t' = t_completed t /\ count_of t' = count_of t /\
  (t_state t' = TCompleted -> t_state t = TCompleted) /\
  ~ (t_state t = TCreated /\ t_state t' = TPending) /\
  (t_each t' = t_each t \/ schedules o (t_id t)).
(** a new row: a first attempt, or one more attempt of the task [o] is about *)
Definition quiet_new (o : origin) (w : world) (t : task) : Prop :=
  t_state t <> TCompleted /\ t_state t <> TSkipped /\
  (attempts_of t = 0 \/
   exists u, task_of o = Some (t_id u) /\ find_task (t_id u) w = Some u /\ attempts_of t = attempts_of u + 1 /\
             t_parent t = t_parent u /\ t_position t = t_position u /\ t_job t = t_job u).

(** the deletion time of a job is set when it completes, and only then *)
Definition deletion_step (O : oracle) (j j' : job) : Prop :=
  (j_deleteat j' = j_deleteat j /\ (j_state j' = JCompleted -> j_state j = JCompleted)) \/
  (j_state j' = JCompleted /\ exists n, j_completed j' = Some n /\
   j_deleteat j' = match deletion_time O j n with Some d => Some d | None => j_deleteat j end).
Definition quiet_job (O : oracle) (o : origin) (j j' : job) : Prop :=
  j_context j' = j_context j /\
  (j_position j' = j_position j \/ (from_job_msg JPending o /\ j_position j' = 1)) /\
  (j_progress j' = j_progress j \/ exists t, o = OMsg (MProgress t)) /\
  deletion_step O j j'.
Definition quiet (O : oracle) (o : origin) (w w' : world) : Prop :=
  (forall i, match find_task i w, find_task i w' with
             | Some t, Some t' => quiet_row o t t'
             | Some _, None => False
             | None, Some t' => quiet_new o w t'
             | None, None => True
             end) /\
  (forall i, match find_job i w, find_job i w' with
             | Some j, Some j' => quiet_job O o j j'
             | Some _, None => False
             | None, Some j' => j_position j' = 0 /\ j_deleteat j' = None
             | None, None => True
             end).

(* ------------------------------------------------------------------ *)
(** * Exactly one completion *)

(** the completion of the row [u], which becomes [u'] *)
Definition recorded_row (u u' : task) : Prop :=
  acceptable (t_state u) /\ completion u' /\
  u' = u <| t_state := t_state u' |> <| t_completed := t_completed u' |> <| t_result := t_result u' |>.

(** for a task without parent: its job advances *)
Definition record_top (w w' : world) (u u' : task) : Prop :=
  t_parent u = noid /\
  exists j j', find_job (t_job u) w = Some j /\ find_job (t_job u) w' = Some j' /\ advanced u' j j' /\
    (forall i, i <> t_id u -> find_task i w' = find_task i w) /\
    (forall i, i <> t_job u -> find_job i w' = find_job i w).

(** for a child: its parent's count goes up by one, the context records the result; an each task with limited
    concurrency may release one child that was held back *)
Definition record_child (w w' : world) (u u' : task) : Prop :=
  t_parent u <> noid /\
  exists p p' j j' (rel : option id),
    find_task (t_parent u) w = Some p /\ find_task (t_parent u) w' = Some p' /\ t_parent u <> t_id u /\
    count_of p' = count_of p + 1 /\ width_of p' = width_of p /\
    p' = p <| t_parallel := t_parallel p' |> <| t_each := t_each p' |> /\
    find_job (t_job u) w = Some j /\ find_job (t_job u) w' = Some j' /\
    context_after u' (j_context j) (j_context j') /\ j' = j <| j_context := j_context j' |> /\
    (forall i, i <> t_job u -> find_job i w' = find_job i w) /\
    match rel with
    | Some x => x <> t_id u /\ x <> t_parent u /\ exists c, find_task x w = Some c /\ t_parent c = t_parent u /\
                  t_state c = TCreated /\ find_task x w' = Some (c <| t_state := TPending |>)
    | None => True
    end /\
    (forall i, i <> t_id u -> i <> t_parent u -> Some i <> rel -> find_task i w' = find_task i w) /\
    (* which children are held back, for an each task *)
    match t_parallel p, t_each p, t_each p' with
    | None, Some e, Some e' =>
        e' = e <| e_completions := e_completions e + 1 |> <| e_index := e_index e + 1 |> /\
        (rel <> None <-> e_completions e + 1 < e_size e /\ 0 < e_concurrency e /\ e_index e < e_size e)
    | _, _, _ => rel = None /\ t_each p' = t_each p
    end.

Definition records (w w' : world) (i : id) : Prop :=
  exists u u', find_task i w = Some u /\ find_task i w' = Some u' /\ recorded_row u u' /\
    (record_top w w' u u' \/ record_child w w' u u').

(** the completion of task [i] that is stored now is the one the message being handled reports *)
Definition as_reported (o : origin) (w' : world) (i : id) : Prop :=
  exists m u', o = OMsg (MTask QUEUE_COMPLETED m) /\ t_id m = i /\ find_task i w' = Some u' /\
    t_state u' = t_state m /\ t_result u' = t_result m.

(** * A transaction that failed after releasing a child of an each task: only that child changed *)
Definition leaks (w w' : world) : Prop :=
  (forall i, find_job i w' = find_job i w) /\
  exists x c, find_task x w = Some c /\ t_state c = TCreated /\ t_parent c <> noid /\
    find_task x w' = Some (c <| t_state := TPending |>) /\
    (forall i, i <> x -> find_task i w' = find_task i w).

(* ------------------------------------------------------------------ *)
(** * Executions *)

(** executions all of whose steps satisfy [P] *)
Inductive exec_where (O : oracle) (P : world -> world -> Prop) : config -> list label -> config -> Prop :=
| xw_nil c : exec_where O P c [] c
| xw_snoc c1 ls c2 l c3 : exec_where O P c1 ls c2 -> step O c2 l c3 -> P (cw c2) (cw c3) -> exec_where O P c1 (ls ++ [l]) c3.

(** how many steps of an execution are of the kind [E] *)
Inductive tally (O : oracle) (E : world -> world -> Prop) : config -> list label -> nat -> config -> Prop :=
| ta_nil c : tally O E c [] 0 c
| ta_hit c1 ls n c2 l c3 : tally O E c1 ls n c2 -> step O c2 l c3 -> E (cw c2) (cw c3) -> tally O E c1 (ls ++ [l]) (S n) c3
| ta_miss c1 ls n c2 l c3 : tally O E c1 ls n c2 -> step O c2 l c3 -> ~ E (cw c2) (cw c3) -> tally O E c1 (ls ++ [l]) n c3.

(** a child of [p] is recorded *)
Definition child_recorded (p : id) (w w' : world) : Prop :=
  exists x u, records w w' x /\ find_task x w = Some u /\ t_parent u = p.
(** a child of [p] that was held back is released *)
Definition child_released (p : id) (w w' : world) : Prop :=
  exists x c c', find_task x w = Some c /\ t_parent c = p /\ t_state c = TCreated /\
    find_task x w' = Some c' /\ t_state c' = TPending.

(** the list of an each task, if evaluated again after a child has completed, has the same length *)
Definition sizes_kept (w w' : world) : Prop :=
  forall i p p', find_task i w = Some p -> find_task i w' = Some p' -> 0 < count_of p -> width_of p' = width_of p.

(** the stored task [i] is in a state in which its completion is accepted *)
Definition awaits_completion (i : id) (w : world) : Prop := exists u, find_task i w = Some u /\ acceptable (t_state u).
(** the thread handles a completion of task [i] *)
Definition completes (o : origin) (i : id) : Prop := from_queue QUEUE_COMPLETED o /\ task_of o = Some i.

(** the completed children of [p] *)
Definition completed_child (p : id) (t : task) : bool := (N.eqb (t_parent t) p && tstate_eqb (t_state t) TCompleted)%bool.
Definition completed_children (p : id) (w : world) : nat := length (filter (completed_child p) (w_tasks w)).

(** retries created along an execution: while handling a message about [a], a task [x] that is not a first attempt is stored *)
Definition retry_made (l : label) (w w' : world) (a x : id) : Prop :=
  exists o t, l = LOp o /\ task_of o = Some a /\ find_task x w = None /\ find_task x w' = Some t /\ 0 < attempts_of t.
Inductive retry_log (O : oracle) : config -> list label -> (id -> id -> Prop) -> config -> Prop :=
| rl_nil c : retry_log O c [] (fun _ _ => False) c
| rl_snoc c1 ls E c2 l c3 : retry_log O c1 ls E c2 -> step O c2 l c3 ->
    retry_log O c1 (ls ++ [l]) (fun a x => E a x \/ retry_made l (cw c2) (cw c3) a x) c3.
(** a chain of [n] retries from [a] to [x] *)
Inductive retry_chain (E : id -> id -> Prop) : id -> nat -> id -> Prop :=
| rch_nil a : retry_chain E a 0 a
| rch_snoc a n y x : retry_chain E a n y -> E y x -> retry_chain E a (S n) x.

(** a completion message about [p] itself is delivered (a worker that was handed the composite task, or its condition skipped it) *)
Definition completion_delivered (p : id) (ls : list label) : Prop := exists t, In (LDeliver (MTask QUEUE_COMPLETED t)) ls /\ t_id t = p.
(** the each setting of a task (a task with both settings is handled as a parallel task) *)
Definition each_of (t : task) : option (eachT task) := match t_parallel t with Some _ => None | None => t_each t end.
