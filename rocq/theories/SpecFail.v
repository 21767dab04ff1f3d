(** Specification vocabulary for failures, cancellation and restarts. Definitions only. *)
From Verif Require Export SpecComplete.
Open Scope string_scope.
Open Scope list_scope.
Open Scope Z_scope.

(** the row of a task whose failure [t] is handled at [clk] *)
Definition failed_row (clk : time) (t u : task) : task :=
  if active (t_state u) then u <| t_state := TFailed |> <| t_failed := Some clk |> <| t_error := t_error t |> else u.

(** attempts are left *)
Definition may_retry (t : task) : Prop := exists r, t_retry t = Some r /\ r_attempts r < r_limit r.

(** a fresh attempt at [t]: a copy with one more attempt on its account and no trace of the failure *)
Definition retry_attempt (t : task) (i : id) (clk : time) (r : retry) : task :=
  (clone_task t) <| t_id := i |> <| t_created := Some clk |> <| t_retry := Some (mkRetry (r_limit r) (r_attempts r + 1)) |>
                 <| t_state := TPending |> <| t_error := "" |> <| t_failed := None |>.

(** the tasks with every active task of job [i] cancelled *)
Definition cancel_active (i : id) (l : list task) : list task :=
  map (fun t => if N.eqb (t_job t) i && active (t_state t) then t <| t_state := TCancelled |> else t) l.
Definition active_tasks (i : id) (l : list task) : list task :=
  filter (fun t => N.eqb (t_job t) i && active (t_state t)) l.

(** who has to be told that task [t] is cancelled *)
Definition has_subjob (t : task) : option id :=
  match t_subjob t with Some s => if N.eqb (s_id s) noid then None else Some (s_id s) | None => None end.
Inductive notice (w : world) (t : task) : list msg -> Prop :=
| notice_subjob i sj : has_subjob t = Some i -> find_job i w = Some sj -> notice w t [MJob (sj <| j_state := JCancelled |>)]
| notice_node n : has_subjob t = None -> t_node t <> noid -> find_node (t_node t) w = Some n ->
    notice w t [MTask (n_queue n) (t <| t_state := TCancelled |>)]
| notice_none : has_subjob t = None -> t_node t = noid -> notice w t [].
(** one list of notices per task, in order *)
Inductive notices (w : world) : list task -> list msg -> Prop :=
| notices_nil : notices w [] []
| notices_cons t l a b : notice w t a -> notices w l b -> notices w (t :: l) (a ++ b).
(** the records needed to tell them are there *)
Definition reachable_workers (w : world) (i : id) : Prop :=
  forall t, In t (active_tasks i (w_tasks w)) -> exists ms, notice w t ms.
