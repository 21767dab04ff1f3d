(** Specification vocabulary for completions. Definitions only. *)
From Verif Require Export SpecSeq.
Open Scope string_scope.
Open Scope list_scope.
Open Scope Z_scope.

(** a completion of a task in this state is accepted *)
Definition acceptable (s : tstate) : Prop := s = TRunning \/ s = TScheduled \/ s = TSkipped.
(** a completion report *)
Definition completion (t : task) : Prop := t_state t = TCompleted \/ t_state t = TSkipped.

(** [p] is [a/b] rounded to the nearest integer, halves up ([0 <= a], [0 < b]) *)
Definition rounds_to (a b p : Z) : Prop := - b < 2 * (p * b - a) <= b.

(** the row of a task whose completion [t] is accepted at time [clk] *)
Definition completed_row (clk : time) (t u : task) : task :=
  u <| t_state := t_state t |> <| t_completed := Some clk |> <| t_result := t_result t |>.

(** the context after task [t] *)
Definition context_after (t : task) (c c' : jobctx) : Prop :=
  c_job c' = c_job c /\ c_inputs c' = c_inputs c /\ c_secrets c' = c_secrets c /\
  forall k, smap_get k (c_tasks c') =
    if String.eqb k (t_var t) && negb (String.eqb (t_result t) "") && negb (String.eqb (t_var t) "")
    then Some (t_result t) else smap_get k (c_tasks c).

(** the job row after an accepted completion of its task [t] *)
Definition advanced (t : task) (j j' : job) : Prop :=
  j_position j' = j_position j + 1 /\ rounds_to (10000 * j_position j) (j_taskcount j) (j_progress j') /\
  context_after t (j_context j) (j_context j') /\
  j' = j <| j_position := j_position j' |> <| j_progress := j_progress j' |> <| j_context := j_context j' |>.

(** [nx] is the instance, created now with identifier [i], of the task [def] of job [j] *)
Definition next_instance (O : oracle) (j : job) (def : task) (i : id) (clk : time) (nx : task) : Prop :=
  match eval_task (o_tmpl O (j_context j) None) def with
  | inl d => nx = identity i (j_id j) (t_parent def) TPending (j_position j) (Some clk) d
  | inr e => nx = (identity i (j_id j) (t_parent def) TPending (j_position j) (Some clk) def)
                    <| t_error := e |> <| t_state := TFailed |> <| t_failed := Some clk |>
  end.

(** the result of a job: its output over its context *)
Definition output_of (O : oracle) (j : job) : string + string := o_tmpl O (j_context j) None (j_output j).

(** the deletion time of a job completed at [clk] *)
Definition deletion_time (O : oracle) (j : job) (clk : time) : option time :=
  match j_autodelete j with
  | Some a => if String.eqb (ad_after a) "" then None else match o_dur O (ad_after a) with Some d => Some (clk + d) | None => None end
  | None => None
  end.

(** a live job's row after its last task completed, and the announcement of it *)
Definition finished_row (O : oracle) (j : job) (clk : time) : job :=
  match output_of O j with
  | inl r => j <| j_state := JCompleted |> <| j_completed := Some clk |> <| j_result := r |>
               <| j_deleteat := match deletion_time O j clk with Some d => Some d | None => j_deleteat j end |>
  | inr e => j <| j_state := JFailed |> <| j_failed := Some clk |> <| j_error := e |>
  end.
(** for a job without a parent task: one event *)
Definition announces (O : oracle) (j : job) (clk : time) (m : msg) : Prop :=
  match output_of O j with
  | inl r => exists je, m = MEvent "job.completed" je /\ j_id je = j_id j /\ j_state je = JCompleted /\ j_result je = r /\ j_context je = j_context j
  | inr e => exists je, m = MEvent "job.failed" je /\ j_id je = j_id j /\ j_state je = JFailed /\ j_error je = e
  end.
(** for an attached sub-job: the outcome of its parent task [pt] *)
Definition reports_to_parent (O : oracle) (j : job) (clk : time) (pt : task) (m : msg) : Prop :=
  match output_of O j with
  | inl r => m = MTask QUEUE_COMPLETED (pt <| t_state := TCompleted |> <| t_completed := Some clk |> <| t_result := r |>)
  | inr e => m = MTask QUEUE_COMPLETED (pt <| t_state := TFailed |> <| t_failed := Some clk |> <| t_error := e |>)
  end.
