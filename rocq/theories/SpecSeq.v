(** Specification vocabulary for one handler run alone. Definitions only. *)
From Verif Require Export System SpecState.
Open Scope string_scope.
Open Scope list_scope.
Open Scope Z_scope.

(** the first non-empty string *)
Fixpoint first_set (l : list string) : string :=
  match l with [] => "" | "" :: r => first_set r | s :: _ => s end.
Definition cpus_of (l : option limits) : string := match l with Some l => l_cpus l | None => "" end.
Definition memory_of (l : option limits) : string := match l with Some l => l_memory l | None => "" end.
Definition retry_limit_of (r : option retry) : Z := match r with Some r => r_limit r | None => 0 end.
Definition attempts_of (r : option retry) : Z := match r with Some r => r_attempts r | None => 0 end.
(** the first non-zero number *)
Definition first_nonzero (a b : Z) : Z := if a =? 0 then b else a.

(** a job's defaults, empty when it has none *)
Definition no_defaults : jobdefaults := mkDefaults None None "" "" 0.
Definition defaults_of (j : job) : jobdefaults := match j_defaults j with Some d => d | None => no_defaults end.

(** [t] apart from the settings a job may give defaults for *)
Definition unscheduled (t : task) : task :=
  t <| t_queue := "" |> <| t_limits := None |> <| t_timeout := "" |> <| t_retry := None |> <| t_priority := 0 |>
    <| t_state := TCreated |> <| t_scheduled := None |>.

(** [t'] is [t] as task [t] of job [j] has to be run *)
Definition resolved (j : job) (t t' : task) : Prop :=
  let d := defaults_of j in
  t_queue t' = first_set [t_queue t; d_queue d; "default"] /\
  cpus_of (t_limits t') = first_set [cpus_of (t_limits t); cpus_of (d_limits d)] /\
  memory_of (t_limits t') = first_set [memory_of (t_limits t); memory_of (d_limits d)] /\
  t_timeout t' = first_set [t_timeout t; d_timeout d] /\
  retry_limit_of (t_retry t') = first_nonzero (retry_limit_of (t_retry t)) (retry_limit_of (d_retry d)) /\
  attempts_of (t_retry t') = attempts_of (t_retry t) /\
  t_priority t' = first_nonzero (t_priority t) (d_priority d) /\
  unscheduled t' = unscheduled t.

(** the settings of a scheduled task, as stored and as sent *)
Definition settings (t : task) :=
  (t_state t, t_scheduled t, t_queue t, t_limits t, t_timeout t, t_retry t, t_priority t).

(** the messages a run publishes *)
Definition published (w w' : world) (l : list msg) : Prop := w_hist w' = w_hist w ++ l.
(** nothing else but (at most) these tables changes *)
Definition same_jobs (w w' : world) : Prop := w_jobs w' = w_jobs w.
Definition same_tasks (w w' : world) : Prop := w_tasks w' = w_tasks w.
(** every task but [i] is as before, and there is no new one *)
Definition only_task (i : id) (w w' : world) : Prop :=
  (forall k, k <> i -> find_task k w' = find_task k w) /\ map t_id (w_tasks w') = map t_id (w_tasks w).
Definition only_job (i : id) (w w' : world) : Prop :=
  (forall k, k <> i -> find_job k w' = find_job k w) /\ map j_id (w_jobs w') = map j_id (w_jobs w).

(** ** White space: tab, line feed, vertical tab, form feed, carriage return, space *)
Definition white (c : Ascii.ascii) : Prop := In (Ascii.nat_of_ascii c) [9; 10; 11; 12; 13; 32]%nat.
Fixpoint spaces (s : string) : Prop :=
  match s with EmptyString => True | String c r => white c /\ spaces r end.
(** "false" up to surrounding white space *)
Definition false_padded (s : string) : Prop := exists a b, spaces a /\ spaces b /\ s = (a ++ "false" ++ b)%string.
(** a task run by a worker: neither parallel nor each nor sub-job *)
Definition regular (t : task) : Prop := t_parallel t = None /\ t_each t = None /\ t_subjob t = None.
(** the messages of [l] on worker queues *)
Definition on_queue (q : string) (m : msg) : bool := match m with MTask q' _ => String.eqb q' q | _ => false end.

(** The world when a handler running alone has done [n] operations (and then crashed, if it was not finished). *)
Fixpoint after {A} (n : nat) (p : prog A) (w : world) : world :=
  match n, p with
  | S n, Step f k => let '(w', o) := f w in after n (k o) w'
  | _, _ => w
  end.

(** [t] with the identity of one instance of it *)
Definition identity (i jb pa : id) (s : tstate) (pos : Z) (cr : option time) (t : task) : task :=
  t <| t_id := i |> <| t_job := jb |> <| t_state := s |> <| t_position := pos |> <| t_created := cr |> <| t_parent := pa |>.

(** how many children of an each task over [n] elements may start at once *)
Definition released_at_once (concurrency : Z) (n : nat) : nat :=
  if concurrency =? 0 then n else Nat.min (Z.to_nat concurrency) n.

(** the template value of the each task's element [x] at index [k] in the task [def] *)
Definition instance_of (O : oracle) (c : jobctx) (var : string) (k : nat) (x : o_val O) (def d : task) : Prop :=
  eval_task (o_tmpl O c (Some (var, Z.of_nat k, x))) (clone_task def) = inl d.

(** The successive instances [ds] of one definition for the elements [l], the first having index [k].
    Evaluating an instance overwrites the commands of the definition, because they share storage. *)
Inductive instances (O : oracle) (c : jobctx) (var : string) : nat -> task -> list (o_val O) -> list task -> Prop :=
| instances_nil k def : instances O c var k def [] []
| instances_cons k def x l d ds :
    instance_of O c var k x def d -> instances O c var (S k) (write_cmds def d) l ds ->
    instances O c var k def (x :: l) (d :: ds).

(** The commands in [t], and in the pre, post and parallel tasks in it at any depth, contain nothing
    that the template evaluation [f] changes. *)
Fixpoint plain_commands (f : string -> string + string) (t : task) : Prop :=
  (forall s, In s (t_cmd t) -> f s = inl s) /\
  fold_right and True (map (plain_commands f) (t_pre t)) /\
  fold_right and True (map (plain_commands f) (t_post t)) /\
  match t_parallel t with None => True | Some p => fold_right and True (map (plain_commands f) (p_tasks p)) end.

(** [new] are stored (as the database reads them back) after what was there *)
Definition added (w : world) (old : list task) (new : list task) (w' : world) : Prop :=
  w_tasks w' = old ++ map db_task new.
