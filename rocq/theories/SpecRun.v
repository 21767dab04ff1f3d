(** Specification vocabulary for C72: jobs of any shape, messages consumed in any order. Definitions only. *)
From Verif Require Export SpecLive.
Open Scope string_scope.
Open Scope list_scope.
Open Scope Z_scope.

(** ** Definitions that can be evaluated *)
Section Definitions.
Variable O : oracle.

(** The string has the property, evaluates in every context, and so does whatever it evaluates to (the tasks of a parallel task are evaluated
    with it and again on their own: scheduler.go:289-293). *)
CoInductive evaluates (P : string -> Prop) (s : string) : Prop :=
| evaluates_intro : P s -> (forall c item, exists r, o_tmpl O c item s = inl r /\ evaluates P r) -> evaluates P s.
Definition any_string (s : string) : Prop := True.
(** a queue that workers serve, or none *)
Definition worker_queue (q : string) : Prop := q = "" \/ is_task_queue q = true.
Definition values (m : smap) : Prop := Forall (fun kv => evaluates any_string (snd kv)) m.
Definition hook (h : webhook) : Prop := evaluates any_string (wh_url h) /\ values (wh_headers h).
(** the output of a job is evaluated once *)
Definition output_evaluates (s : string) : Prop := forall c, exists r, o_tmpl O c None s = inl r.

(** Templates evaluate; queues are worker queues; a parallel task has tasks, an each task has elements and no negative concurrency, a sub-job has
    tasks: at every depth.  (An each task without elements and a parallel task without tasks never complete: scheduler.go:223,283.) *)
Fixpoint well_formed (t : task) : Prop :=
  evaluates any_string (t_name t) /\ evaluates any_string (t_var t) /\ evaluates any_string (t_image t) /\ evaluates any_string (t_if t) /\
  evaluates worker_queue (t_queue t) /\ values (t_env t) /\ Forall (evaluates any_string) (t_cmd t) /\
  fold_right (fun c P => well_formed c /\ P) True (t_pre t) /\
  fold_right (fun c P => well_formed c /\ P) True (t_post t) /\
  match t_parallel t with
  | Some p => p_tasks p <> [] /\ fold_right (fun c P => well_formed c /\ P) True (p_tasks p)
  | None => True end /\
  match t_each t with
  | Some e => 0 <= e_concurrency e /\ (forall c, exists x l, o_list O c (e_list e) = inl (Some (x :: l))) /\ well_formed (e_task e)
  | None => True end /\
  match t_subjob t with
  | Some s => s_tasks s <> [] /\ evaluates any_string (s_name s) /\ values (s_inputs s) /\ values (s_secrets s) /\ Forall hook (s_webhooks s) /\
      output_evaluates (s_output s) /\ fold_right (fun c P => well_formed c /\ P) True (s_tasks s)
  | None => True end.
(** a job that the API accepts and that can be evaluated *)
Definition submittable (d : job) : Prop :=
  accepted d /\ Forall well_formed (j_tasks d) /\ output_evaluates (j_output d) /\ worker_queue (d_queue (defaults_of d)).
End Definitions.

(** ** The run *)

(** the stored data, the messages published and not yet consumed, and the number of steps so far *)
Record running := mkRunning { r_world : world; r_flight : list msg; r_steps : nat }.

(** the messages published between two worlds *)
Definition since (w w' : world) : list msg := skipn (length (w_hist w)) (w_hist w').

(** One step of a deployment without failures: a job is submitted, or any one of the messages in flight is consumed to the end (by a worker if it is a
    task on a worker queue, by the coordinator otherwise), or nothing happens because there is nothing to do. *)
Inductive moves (O : oracle) (b : behaviour) : option job -> running -> running -> Prop :=
| moves_submit d w l k w0 w' :
    w0 = w <| w_clock := b_clock b k |> <| w_faults := [] |> -> submittable O d -> w' = fst (run (api_submit d) w0) ->
    moves O b (Some d) (mkRunning w l k) (mkRunning w' (l ++ since w w') (S k))
| moves_consume w l1 m l2 k w0 w' :
    w0 = w <| w_clock := b_clock b k |> <| w_faults := [] |> -> w' = consume O b k m w0 ->
    moves O b None (mkRunning w (l1 ++ m :: l2) k) (mkRunning w' (l1 ++ l2 ++ since w w') (S k))
| moves_rest w k : moves O b None (mkRunning w [] k) (mkRunning w [] k).

(** the workers that report a start are registered *)
Definition registered (b : behaviour) (w : world) : Prop := forall k t, exists n, find_node (t_node (b_start b k t)) w = Some n.

(** the jobs stored since there were [i] identifiers, and their tasks *)
Definition new_jobs (i : id) (w : world) (P : job -> Prop) : Prop := forall j, In j (w_jobs w) -> (i <= j_id j)%N -> P j.
Definition new_tasks (i : id) (w : world) (P : task -> Prop) : Prop := forall t, In t (w_tasks w) -> (i <= t_job t)%N -> P t.

(** ** Executions (C73) *)
(** the task has tasks or a job of its own instead of running on a worker *)
Definition container (t : task) : bool := match t_parallel t, t_each t, t_subjob t with None, None, None => false | _, _, _ => true end.
(** how often a task is put on a queue that workers serve *)
Definition given_out (i : id) (l : list msg) : nat :=
  length (filter (fun m => match m with MTask q t => (is_task_queue q && N.eqb (t_id t) i)%bool | _ => false end) l).
