(** C52: the worker.  internal/worker/worker.go:85-205 (handleTask, doHandleTask, runTask, doRunTask,
    cancelTask).  Part A: what one execution publishes.  Part B: the bookkeeping of concurrent executions
    (taskCount, the map of running tasks, cancellation).
    Not modelled: the worker's own HTTP server (worker/api.go), the content of heartbeats (worker.go:207-249),
    start and stop of the process. *)
From Verif Require Import Types Clone Middleware World System.
Open Scope string_scope.
Open Scope Z_scope.

(* ------------------------------------------------------------------ *)
(** * Model, part A *)
(** one call of [broker.PublishTask]: the queue, the content of the task at that moment, and the error if it failed *)
Record pub := mkPub { pub_queue : string; pub_task : task; pub_err : option string }.

(** a task handler ([task.HandlerFunc], middleware/task/task.go:11) called with a pointer to a task:
    what it publishes, the task after the call, and the error returned *)
Definition thandler := task -> list pub * task * option string.

(** worker.go:51-55 *)
Record wlimits := mkWLimits { wl_cpus : string; wl_memory : string; wl_timeout : string }.

Section Exec.
Variable node : id.                                    (* w.id *)
Variable wl : wlimits.                                 (* w.limits *)
Variable runtime : task -> task * option string.       (* w.runtime.Run: mutates the task, returns an error *)
Variable parse_ok : string -> option string.           (* time.ParseDuration: the error, if any *)
Variable publish_err : string -> task -> option string. (* broker.PublishTask: the error, if any *)
Variables start_time run_time fail_time : time.        (* the clock readings *)

Definition is_empty (s : string) : bool := String.eqb s "".
Definition publish (q : string) (t : task) : pub := mkPub q t (publish_err q t).

(** worker.go:177-205 *)
Definition do_run_task (t : task) : task * option string :=
  match (if is_empty (t_timeout t) then None else parse_ok (t_timeout t)) with
  | Some e => (t, Some ("invalid timeout duration: " ++ t_timeout t ++ ": " ++ e))
  | None =>
      let (t, r) := runtime t in
      match r with
      | Some e => (t <| t_failed := Some run_time |> <| t_state := TFailed |> <| t_error := e |>, None)
      | None => (t <| t_completed := Some run_time |> <| t_state := TCompleted |>, None)
      end
  end.

(** worker.go:152-175; the counter and the map of running tasks are in part B *)
Definition run_task : thandler := fun t =>
  let p := publish QUEUE_STARTED t in
  match pub_err p with
  | Some e => ([p], t, Some e)
  | None => let (t', e) := do_run_task t in ([p], t', e)
  end.

(** worker.go:108-110 *)
Definition limits_record (t : task) : task :=
  match t_limits t with
  | None => if negb (is_empty (wl_cpus wl)) || negb (is_empty (wl_memory wl))
            then t <| t_limits := Some (mkLimits "" "") |> else t
  | Some _ => t end.
(** worker.go:111-113 *)
Definition default_cpus (t : task) : task :=
  match t_limits t with
  | Some l => if is_empty (l_cpus l) then t <| t_limits := Some (l <| l_cpus := wl_cpus wl |>) |> else t
  | None => t end.
(** worker.go:114-116 *)
Definition default_memory (t : task) : task :=
  match t_limits t with
  | Some l => if is_empty (l_memory l) then t <| t_limits := Some (l <| l_memory := wl_memory wl |>) |> else t
  | None => t end.
(** worker.go:117-119 *)
Definition default_timeout (t : task) : task :=
  if is_empty (t_timeout t) then t <| t_timeout := wl_timeout wl |> else t.
(** worker.go:103-119 *)
Definition prepare (t : task) : task :=
  default_timeout (default_memory (default_cpus (limits_record
    (t <| t_started := Some start_time |> <| t_node := node |> <| t_state := TRunning |>)))).

(** worker.go:123-150: the publications and the error returned to the broker *)
Definition do_handle_task (mws : list (thandler -> thandler)) (t : task) : list pub * option string :=
  let t := prepare t in
  let '(ps, rt, e) := apply_middleware run_task mws (clone_task t) in
  match e with
  | Some e =>
      let p := publish QUEUE_ERROR (t <| t_error := e |> <| t_failed := Some fail_time |> <| t_state := TFailed |>) in
      ((ps ++ [p])%list, pub_err p)
  | None =>
      match t_state rt with
      | TCompleted =>
          let p := publish QUEUE_COMPLETED (t <| t_result := t_result rt |> <| t_completed := t_completed rt |> <| t_state := t_state rt |>) in
          ((ps ++ [p])%list, pub_err p)
      | TFailed =>
          let p := publish QUEUE_ERROR (t <| t_error := t_error rt |> <| t_failed := t_failed rt |> <| t_state := t_state rt |>) in
          ((ps ++ [p])%list, pub_err p)
      | _ => (ps, Some "unexpected state")
      end
  end.

(* ------------------------------------------------------------------ *)
(** * Specification, part A *)
(** A well-behaved middleware: it may change the task before passing it on or refuse it with an error, and
    afterwards change it again (not its state) or turn the call into an error.  hostenv (internal/hostenv) and
    the webhook and redaction middlewares are of this form. *)
Record gate := mkGate { g_pre : task -> task + string; g_post : task -> task * option string }.
Definition gate_mw (g : gate) : thandler -> thandler := fun next t =>
  match g_pre g t with
  | inr e => ([], t, Some e)
  | inl t1 => let '(ps, t2, e) := next t1 in
              match e with
              | Some e => (ps, t2, Some e)
              | None => let (t3, e') := g_post g t2 in (ps, t3, e')
              end
  end.
Definition good_gate (g : gate) : Prop := forall t, t_state (fst (g_post g t)) = t_state t.

(** all the before-parts in order; the first refusal wins *)
Fixpoint pre_all (gs : list gate) (t : task) : task + string :=
  match gs with
  | [] => inl t
  | g :: gs => match g_pre g t with inr e => inr e | inl t1 => pre_all gs t1 end
  end.
(** all the after-parts, last registered first *)
Fixpoint post_all (gs : list gate) (t : task) : task * option string :=
  match gs with
  | [] => (t, None)
  | g :: gs => match post_all gs t with (t1, None) => g_post g t1 | (t1, Some e) => (t1, Some e) end
  end.

(** the task as the coordinator gets it back: everything but these fields is as received *)
Definition outcome_of (t t' : task) : Prop :=
  t_node t' = node /\
  t_id t' = t_id t /\ t_job t' = t_job t /\ t_parent t' = t_parent t /\ t_position t' = t_position t /\
  t_name t' = t_name t /\ t_description t' = t_description t /\ t_created t' = t_created t /\ t_scheduled t' = t_scheduled t /\
  t_cmd t' = t_cmd t /\ t_entrypoint t' = t_entrypoint t /\ t_run t' = t_run t /\ t_image t' = t_image t /\
  t_registry t' = t_registry t /\ t_env t' = t_env t /\ t_files t' = t_files t /\ t_queue t' = t_queue t /\
  t_redelivered t' = t_redelivered t /\ t_pre t' = t_pre t /\ t_post t' = t_post t /\ t_sidecars t' = t_sidecars t /\
  t_mounts t' = t_mounts t /\ t_networks t' = t_networks t /\ t_retry t' = t_retry t /\ t_var t' = t_var t /\
  t_if t' = t_if t /\ t_parallel t' = t_parallel t /\ t_each t' = t_each t /\ t_subjob t' = t_subjob t /\
  t_gpus t' = t_gpus t /\ t_tags t' = t_tags t /\ t_workdir t' = t_workdir t /\ t_priority t' = t_priority t /\
  t_progress t' = t_progress t /\ t_probe t' = t_probe t.

Definition is_outcome (p : pub) : bool := String.eqb (pub_queue p) QUEUE_COMPLETED || String.eqb (pub_queue p) QUEUE_ERROR.
Definition is_start (p : pub) : bool := String.eqb (pub_queue p) QUEUE_STARTED.

(** why an execution fails, if it does, for a task that reaches the runtime as [t1] *)
Definition verdict (gs : list gate) (t1 : task) : task + string :=
  match publish_err QUEUE_STARTED t1 with
  | Some e => inr e
  | None =>
    match (if is_empty (t_timeout t1) then None else parse_ok (t_timeout t1)) with
    | Some e => inr ("invalid timeout duration: " ++ t_timeout t1 ++ ": " ++ e)
    | None =>
        match runtime t1 with
        | (t2, Some e) =>
            match post_all gs (t2 <| t_failed := Some run_time |> <| t_state := TFailed |> <| t_error := e |>) with
            | (t3, None) => inr (t_error t3)
            | (_, Some e') => inr e'
            end
        | (t2, None) =>
            match post_all gs (t2 <| t_completed := Some run_time |> <| t_state := TCompleted |>) with
            | (t3, None) => inl t3
            | (_, Some e') => inr e'
            end
        end
    end
  end.

(* ------------------------------------------------------------------ *)
(** * Proofs, part A *)
Lemma prepare_outcome t : outcome_of t (prepare t).
Proof.
  assert (HL : forall x l, outcome_of t x -> outcome_of t (x <| t_limits := l |>)) by (unfold outcome_of; intros; cbn; assumption).
  assert (HT : forall x l, outcome_of t x -> outcome_of t (x <| t_timeout := l |>)) by (unfold outcome_of; intros; cbn; assumption).
  assert (H2 : forall x, outcome_of t x -> outcome_of t (limits_record x)) by (intros; unfold limits_record; destruct (t_limits x); [auto|]; destruct (_ || _); auto).
  assert (H3 : forall x, outcome_of t x -> outcome_of t (default_cpus x)) by (intros; unfold default_cpus; destruct (t_limits x); [|auto]; destruct (is_empty _); auto).
  assert (H4 : forall x, outcome_of t x -> outcome_of t (default_memory x)) by (intros; unfold default_memory; destruct (t_limits x); [|auto]; destruct (is_empty _); auto).
  assert (H5 : forall x, outcome_of t x -> outcome_of t (default_timeout x)) by (intros; unfold default_timeout; destruct (is_empty _); auto).
  unfold prepare. apply H5, H4, H3, H2. unfold outcome_of; repeat split; reflexivity.
Qed.

Lemma outcome_done t t0 r c s : outcome_of t t0 -> outcome_of t (t0 <| t_result := r |> <| t_completed := c |> <| t_state := s |>).
Proof. unfold outcome_of. intros H. decompose [and] H. repeat (split; [assumption|]). assumption. Qed.
Lemma outcome_fail t t0 e c s : outcome_of t t0 -> outcome_of t (t0 <| t_error := e |> <| t_failed := c |> <| t_state := s |>).
Proof. unfold outcome_of. intros H. decompose [and] H. repeat (split; [assumption|]). assumption. Qed.

Lemma chain gs t : Forall good_gate gs ->
  apply_middleware run_task (map gate_mw gs) t =
  match pre_all gs t with
  | inr e => ([], snd (fst (apply_middleware run_task (map gate_mw gs) t)), Some e)
  | inl t1 =>
      match run_task t1 with
      | (ps, t2, Some e) => (ps, snd (fst (apply_middleware run_task (map gate_mw gs) t)), Some e)
      | (ps, t2, None) => (ps, fst (post_all gs t2), snd (post_all gs t2))
      end
  end.
Proof.
  intros Hg. revert t. induction Hg as [|g gs Hg1 Hg IH]; intros t.
  - cbn [map pre_all post_all]. rewrite C46_no_middleware. destruct (run_task t) as [[ps t2] [e|]]; reflexivity.
  - cbn [map]. rewrite C46_first_is_outermost. cbn [pre_all post_all]. unfold gate_mw at 1 3 5.
    destruct (g_pre g t) as [t1|e]; [|reflexivity].
    rewrite IH. destruct (pre_all gs t1) as [t2|e]; [|reflexivity].
    destruct (run_task t2) as [[ps t3] [e|]]; [reflexivity|].
    destruct (post_all gs t3) as [t4 [e|]]; cbn; [reflexivity|]. destruct (g_post g t4); reflexivity.
Qed.

Lemma post_state gs t : Forall good_gate gs -> t_state (fst (post_all gs t)) = t_state t.
Proof.
  induction 1 as [|g gs Hg1 Hg IH]; [reflexivity|]. cbn. destruct (post_all gs t) as [t1 [e|]]; cbn in *; [auto|].
  rewrite Hg1. auto.
Qed.

(** The whole behaviour of one execution, with any chain of well-behaved middlewares: at most one start report,
    then exactly one outcome. *)
Theorem C52_one_outcome : forall gs t, Forall good_gate gs ->
  let '(ps, err) := do_handle_task (map gate_mw gs) t in
  match pre_all gs (clone_task (prepare t)) with
  | inr e =>       (* refused by a middleware: never started, one failure *)
      exists p, ps = [p] /\ pub_queue p = QUEUE_ERROR /\ t_state (pub_task p) = TFailed /\ t_error (pub_task p) = e /\
                outcome_of t (pub_task p) /\ err = pub_err p
  | inl t1 =>      (* reaches the runtime as t1: one start report, then one outcome *)
      exists s p, ps = [s; p] /\ pub_queue s = QUEUE_STARTED /\ pub_task s = t1 /\ outcome_of t (pub_task p) /\ err = pub_err p /\
        match verdict gs t1 with
        | inl t3 => pub_queue p = QUEUE_COMPLETED /\ t_state (pub_task p) = TCompleted /\ t_result (pub_task p) = t_result t3
        | inr e => pub_queue p = QUEUE_ERROR /\ t_state (pub_task p) = TFailed /\ t_error (pub_task p) = e
        end
  end.
Proof.
  intros gs t Hg. unfold do_handle_task. rewrite chain by auto.
  pose proof (prepare_outcome t) as Ho.
  set (t0 := prepare t) in *. clearbody t0.
  set (x := snd (fst _)). clearbody x.
  destruct (pre_all gs (clone_task t0)) as [t1|e].
  2:{ eexists. split; [reflexivity|]. split; [reflexivity|]. split; [reflexivity|]. split; [reflexivity|].
      split; [|reflexivity]. exact (outcome_fail t t0 _ _ _ Ho). }
  pose proof (fun r c s => outcome_done t t0 r c s Ho) as Hc. pose proof (fun e c s => outcome_fail t t0 e c s Ho) as Hf.
  unfold run_task, verdict. cbn [publish pub_err].
  destruct (publish_err QUEUE_STARTED t1) as [e|].
  { eexists _, _. cbn [app]. split; [reflexivity|]. split; [reflexivity|]. split; [reflexivity|]. split; [apply Hf|]. split; [reflexivity|].
    repeat split; reflexivity. }
  unfold do_run_task.
  destruct (if is_empty (t_timeout t1) then None else parse_ok (t_timeout t1)) as [e|].
  { eexists _, _. cbn [app]. split; [reflexivity|]. split; [reflexivity|]. split; [reflexivity|]. split; [apply Hf|]. split; [reflexivity|].
    repeat split; reflexivity. }
  destruct (runtime t1) as [t2 [e|]].
  - set (y := t2 <| t_failed := Some run_time |> <| t_state := TFailed |> <| t_error := e |>).
    pose proof (post_state gs y Hg) as Hs. assert (t_state y = TFailed) as Hy by (destruct t2; reflexivity). rewrite Hy in Hs. clearbody y.
    destruct (post_all gs y) as [t3 [e'|]]; cbn [fst snd] in *; try rewrite Hs.
    all: eexists _, _; cbn [app]; split; [reflexivity|]; split; [reflexivity|]; split; [reflexivity|]; split; [apply Hf|]; split; [reflexivity|].
    all: repeat split; reflexivity.
  - set (y := t2 <| t_completed := Some run_time |> <| t_state := TCompleted |>).
    pose proof (post_state gs y Hg) as Hs. assert (t_state y = TCompleted) as Hy by (destruct t2; reflexivity). rewrite Hy in Hs. clearbody y.
    destruct (post_all gs y) as [t3 [e'|]]; cbn [fst snd] in *; try rewrite Hs.
    all: eexists _, _; cbn [app]; split; [reflexivity|]; split; [reflexivity|]; split; [reflexivity|].
    1: split; [apply Hf|]; split; [reflexivity|].
    2: split; [apply Hc|]; split; [reflexivity|].
    all: repeat split; reflexivity.
Qed.

(** Whatever the middlewares are: the worker itself adds at most one publication, an outcome, whose content is the
    task received apart from the fields listed in [outcome_of]; and it adds none only if the handler returned
    without error leaving the task in a state that is neither COMPLETED nor FAILED. *)
Theorem C52_outcome_content : forall mws t,
  let '(ps, err) := do_handle_task mws t in
  let '(inner, rt, e) := apply_middleware run_task mws (clone_task (prepare t)) in
  (exists p, ps = (inner ++ [p])%list /\ is_outcome p = true /\ outcome_of t (pub_task p) /\ err = pub_err p /\
     (pub_queue p = QUEUE_COMPLETED <-> e = None /\ t_state rt = TCompleted) /\
     (pub_queue p = QUEUE_COMPLETED -> t_state (pub_task p) = TCompleted /\ t_result (pub_task p) = t_result rt /\ t_completed (pub_task p) = t_completed rt) /\
     (pub_queue p = QUEUE_ERROR -> t_state (pub_task p) = TFailed /\ t_error (pub_task p) = match e with Some e => e | None => t_error rt end)) \/
  (ps = inner /\ err <> None /\ e = None /\ t_state rt <> TCompleted /\ t_state rt <> TFailed).
Proof.
  intros mws t. unfold do_handle_task.
  pose proof (prepare_outcome t) as Ho.
  set (t0 := prepare t) in *. clearbody t0.
  pose proof (fun r c s => outcome_done t t0 r c s Ho) as Hc. pose proof (fun e c s => outcome_fail t t0 e c s Ho) as Hf.
  destruct (apply_middleware run_task mws (clone_task t0)) as [[inner rt] [e|]].
  - left. eexists. split; [reflexivity|]. split; [reflexivity|]. split; [apply Hf|]. split; [reflexivity|].
    split; [split; [cbn; intros [=]|intros [[=] _]]|]. split; [cbn; intros [=]|]. intros _. split; reflexivity.
  - destruct (t_state rt) eqn:Es; try (right; repeat split; congruence).
    + left. eexists. split; [reflexivity|]. split; [reflexivity|]. split; [apply Hc|]. split; [reflexivity|].
      split; [split; auto|]. split; [intros _; auto|cbn; intros [=]].
    + left. eexists. split; [reflexivity|]. split; [reflexivity|]. split; [apply Hf|]. split; [reflexivity|].
      split; [split; [cbn; intros [=]|intros [_ [=]]]|]. split; [cbn; intros [=]|]. intros _. split; reflexivity.
Qed.

(** The limits and timeout of the executed task: its own where given, else the worker's default. *)
Theorem C52_limits : forall t,
  t_timeout (prepare t) = (if is_empty (t_timeout t) then wl_timeout wl else t_timeout t) /\
  match t_limits t, t_limits (prepare t) with
  | Some l, Some l' => l_cpus l' = (if is_empty (l_cpus l) then wl_cpus wl else l_cpus l) /\
                       l_memory l' = (if is_empty (l_memory l) then wl_memory wl else l_memory l)
  | None, Some l' => l' = mkLimits (wl_cpus wl) (wl_memory wl)
  | None, None => wl_cpus wl = "" /\ wl_memory wl = ""
  | Some _, None => False
  end.
Proof.
  intros t. unfold prepare.
  set (t1 := t <| t_started := _ |> <| t_node := _ |> <| t_state := _ |>).
  replace (t_timeout t) with (t_timeout t1) by reflexivity. replace (t_limits t) with (t_limits t1) by reflexivity. clearbody t1.
  assert (E1 : forall x, t_limits (default_timeout x) = t_limits x) by (intros; unfold default_timeout; destruct (is_empty _); reflexivity).
  assert (E2 : forall x, t_timeout (default_memory x) = t_timeout x) by (intros; unfold default_memory; destruct (t_limits x); [destruct (is_empty _)|]; reflexivity).
  assert (E3 : forall x, t_timeout (default_cpus x) = t_timeout x) by (intros; unfold default_cpus; destruct (t_limits x); [destruct (is_empty _)|]; reflexivity).
  assert (E4 : forall x, t_timeout (limits_record x) = t_timeout x) by (intros; unfold limits_record; destruct (t_limits x); [|destruct (_ || _)]; reflexivity).
  split.
  - unfold default_timeout. rewrite E2, E3, E4. destruct (is_empty _); [reflexivity|]. now rewrite E2, E3, E4.
  - rewrite E1.
    assert (F1 : forall x, t_limits (default_memory x) = match t_limits x with Some l => Some (if is_empty (l_memory l) then l <| l_memory := wl_memory wl |> else l) | None => None end).
    { intros. unfold default_memory. destruct (t_limits x) eqn:E; [destruct (is_empty _)|]; auto. }
    assert (F2 : forall x, t_limits (default_cpus x) = match t_limits x with Some l => Some (if is_empty (l_cpus l) then l <| l_cpus := wl_cpus wl |> else l) | None => None end).
    { intros. unfold default_cpus. destruct (t_limits x) eqn:E; [destruct (is_empty _)|]; auto. }
    assert (F3 : t_limits (limits_record t1) = match t_limits t1 with Some l => Some l | None => if negb (is_empty (wl_cpus wl)) || negb (is_empty (wl_memory wl)) then Some (mkLimits "" "") else None end).
    { unfold limits_record. destruct (t_limits t1) eqn:E; [|destruct (_ || _)]; auto. }
    rewrite F1, F2, F3. destruct (t_limits t1) as [l|].
    + destruct l as [c m]. unfold set; cbn -[is_empty]. destruct (is_empty c) eqn:Ec, (is_empty m) eqn:Em; cbn -[is_empty]; rewrite ?Ec, ?Em; cbn -[is_empty]; auto.
    + destruct (negb (is_empty (wl_cpus wl)) || negb (is_empty (wl_memory wl))) eqn:Eb; cbn; [reflexivity|].
      apply orb_false_iff in Eb as [A B]. apply negb_false_iff, String.eqb_eq in A, B. auto.
Qed.
End Exec.
Print Assumptions C52_one_outcome.
Print Assumptions C52_outcome_content.
Print Assumptions C52_limits.

(** ** The worker of the coordinator model *)
(** The system model (System.v) lets workers publish whatever satisfies [env_msg]; here is the proof that the worker
    just modelled does nothing else.  The middlewares may change anything but the identity of the task. *)
Definition id_gate (g : gate) : Prop :=
  good_gate g /\ forall t t1, g_pre g t = inl t1 -> worker_report t t1 /\ t_state t1 = t_state t.
Definition simple_task (t : task) : Prop := t_parallel t = None /\ t_each t = None /\ t_subjob t = None.

Lemma worker_report_trans a b c : worker_report a b -> worker_report b c -> worker_report a c.
Proof. unfold worker_report. intuition congruence. Qed.
Lemma pre_all_report gs t t1 : Forall id_gate gs -> pre_all gs t = inl t1 -> worker_report t t1 /\ t_state t1 = t_state t.
Proof.
  intros Hg. revert t. induction Hg as [|g gs [_ Hg1] Hg IH]; intros t H; cbn in H.
  - injection H as <-. split; [unfold worker_report; auto 20|reflexivity].
  - destruct (g_pre g t) as [t2|] eqn:E; [|discriminate]. apply Hg1 in E as [A B]. apply IH in H as [C D].
    split; [eapply worker_report_trans; eassumption|congruence].
Qed.
Lemma outcome_report node t t' : outcome_of node t t' -> worker_report t t'.
Proof. unfold outcome_of, worker_report. intuition congruence. Qed.
Lemma clone_report t : simple_task t -> worker_report t (clone_task t) /\ t_state (clone_task t) = t_state t.
Proof.
  intros (A & B & C). destruct t. unfold worker_report. cbn in *. subst. repeat split; auto.
  destruct t_retry as [[]|]; reflexivity.
Qed.
Lemma prepare_state node wl st t : t_state (prepare node wl st t) = TRunning.
Proof.
  unfold prepare, default_timeout, default_memory, default_cpus, limits_record.
  repeat match goal with |- context [match ?x with _ => _ end] => destruct x end; reflexivity.
Qed.

Theorem C52_worker_is_env : forall node wl runtime parse_ok publish_err st rt ft gs h q t,
  Forall id_gate gs -> In (MTask q t) h -> is_task_queue q = true -> simple_task t ->
  Forall (fun p => env_msg h (MTask (pub_queue p) (pub_task p)))
         (fst (do_handle_task node wl runtime parse_ok publish_err st rt ft (map gate_mw gs) t)).
Proof.
  intros node wl rn pk pe st rt ft gs h q t Hg Hin Hq Hs.
  assert (Hgg : Forall good_gate gs) by (eapply Forall_impl; [|exact Hg]; intros ? [? _]; auto).
  pose proof (C52_one_outcome node wl rn pk pe st rt ft gs t Hgg) as H.
  destruct (do_handle_task node wl rn pk pe st rt ft (map gate_mw gs) t) as [ps err]. cbn [fst].
  assert (Hst : simple_task (prepare node wl st t)).
  { pose proof (prepare_outcome node wl st t) as Ho. apply outcome_report in Ho. unfold worker_report, simple_task in *. intuition congruence. }
  destruct (pre_all gs (clone_task (prepare node wl st t))) as [t1|e] eqn:Ep.
  - destruct H as (s & p & -> & Hsq & Hst1 & Ho & _ & Hv).
    apply pre_all_report in Ep as [R1 S1]; [|exact Hg].
    destruct (clone_report _ Hst) as [R2 S2]. rewrite S2, prepare_state in S1.
    constructor; [|constructor; [|constructor]].
    + rewrite Hsq, Hst1. econstructor; try eassumption.
      eapply worker_report_trans; [eapply outcome_report, prepare_outcome|]. eapply worker_report_trans; eassumption.
    + destruct (verdict _ _ _ _ _ _) as [t3|e]; destruct Hv as (Hpq & Hps & _); rewrite Hpq.
      * eapply env_completed; try eassumption. eapply outcome_report; eassumption.
      * eapply env_failed; try eassumption. eapply outcome_report; eassumption.
  - destruct H as (p & -> & Hpq & Hps & _ & Ho & _). constructor; [|constructor]. rewrite Hpq.
    eapply env_failed; try eassumption. eapply outcome_report; eassumption.
Qed.
Print Assumptions C52_worker_is_env.

(** Without the restriction to well-behaved middlewares the claim is false: a middleware that returns without
    error and without calling the next handler makes the worker publish nothing at all. *)
Theorem C52_swallowing_middleware_refuted : exists mw, forall node wl runtime parse_ok publish_err st rt ft t,
  fst (do_handle_task node wl runtime parse_ok publish_err st rt ft [mw] t) = [].
Proof.
  exists (fun _ t => ([], t, None)). intros. unfold do_handle_task.
  rewrite C46_first_is_outermost. cbv beta iota.
  assert (t_state (clone_task (prepare node wl st t)) = TRunning) as ->; [|reflexivity].
  assert (E : forall x, t_state (clone_task x) = t_state x) by (intros []; reflexivity).
  rewrite E. apply prepare_state.
Qed.
Print Assumptions C52_swallowing_middleware_refuted.

(** a concrete run: a middleware that adds a variable, a runtime that answers "hi" *)
Definition ex_task : task := mkTask 7%N 3%N 0%N 1 "n" "" TScheduled None None None None None [] [] "" "ubuntu" None [] []
  "default" 2 "" [] [] [] [] [] 0%N (Some (mkRetry 3 1)) None "10s" "" "v" "" None None None "" [] "" 0 0 None.
Definition ex_gate : gate := mkGate (fun t => inl (t <| t_env := ("A", "1") :: t_env t |>)) (fun t => (t, None)).
Definition ex_bad : gate := mkGate (fun t => inr "no") (fun t => (t, None)).
Lemma ex_gate_id : id_gate ex_gate.
Proof. split; [intros t; reflexivity|]. intros t t1 H. injection H as <-. unfold worker_report. cbn. auto 20. Qed.
Definition ex_run gs := do_handle_task 9%N (mkWLimits "1" "" "5m") (fun t => (t <| t_result := "hi" |>, None)) (fun _ => None) (fun _ _ => None) 100 200 300 (map gate_mw gs) ex_task.
Example C52_nonvacuous :
  map (fun p => (pub_queue p, t_state (pub_task p), t_result (pub_task p), t_env (pub_task p), t_redelivered (pub_task p))) (fst (ex_run [ex_gate]))
    = [(QUEUE_STARTED, TRunning, "", [("A", "1")], 0); (QUEUE_COMPLETED, TCompleted, "hi", [], 2)] /\
  map (fun p => (pub_queue p, t_state (pub_task p), t_error (pub_task p))) (fst (ex_run [ex_gate; ex_bad])) = [(QUEUE_ERROR, TFailed, "no")].
Proof. split; vm_compute; reflexivity. Qed.

(* ------------------------------------------------------------------ *)
(** * Model, part B: concurrent executions in one worker (worker.go:85-97,152-175) *)
(** [InCounted]: between AddInt32(+1) and tasks.Set; [InRun]: registered; [InLeft]: after the deferred tasks.Delete,
    before the deferred AddInt32(-1). *)
Inductive phase := InCounted | InRun | InLeft.
Record exec := mkExec { x_key : nat; x_task : id; x_phase : phase; x_cancelled : bool }.
Record wstate := mkW {
  w_count : Z;                     (* taskCount *)
  w_tasks : id -> option nat;      (* tasks: which execution the entry belongs to *)
  w_execs : list exec;             (* the goroutines inside runTask *)
  w_cancelling : list id }.        (* the goroutines inside cancelTask after rt.cancel() *)
Definition w_init : wstate := mkW 0 (fun _ => None) [] [].
Definition mset (m : id -> option nat) (i : id) (v : option nat) : id -> option nat := fun i' => if N.eqb i' i then v else m i'.
Definition mark (k : nat) (x : exec) : exec :=
  if Nat.eqb (x_key x) k then mkExec (x_key x) (x_task x) (x_phase x) true else x.

Inductive wlabel := WEnter (k : nat) (i : id) | WRegister (k : nat) | WUnregister (k : nat) | WLeave (k : nat) | WCancel (i : id) | WCancelEnd (i : id).
Inductive wstep : wstate -> wlabel -> wstate -> Prop :=
(** worker.go:153 *)
| ws_enter c m xs ds k i : ~ In k (map x_key xs) ->
    wstep (mkW c m xs ds) (WEnter k i) (mkW (c + 1) m (xs ++ [mkExec k i InCounted false]) ds)
(** worker.go:162-165 *)
| ws_register c m l1 k i b l2 ds :
    wstep (mkW c m (l1 ++ mkExec k i InCounted b :: l2) ds) (WRegister k)
          (mkW c (mset m i (Some k)) (l1 ++ mkExec k i InRun b :: l2) ds)
(** worker.go:166, run when runTask returns for whatever reason *)
| ws_unregister c m l1 k i b l2 ds :
    wstep (mkW c m (l1 ++ mkExec k i InRun b :: l2) ds) (WUnregister k)
          (mkW c (mset m i None) (l1 ++ mkExec k i InLeft b :: l2) ds)
(** worker.go:154-156 *)
| ws_leave c m l1 k i b l2 ds :
    wstep (mkW c m (l1 ++ mkExec k i InLeft b :: l2) ds) (WLeave k) (mkW (c - 1) m (l1 ++ l2) ds)
(** worker.go:86-90 *)
| ws_cancel_unknown c m xs ds i : m i = None -> wstep (mkW c m xs ds) (WCancel i) (mkW c m xs ds)
(** worker.go:91-92 *)
| ws_cancel c m xs ds i k : m i = Some k ->
    wstep (mkW c m xs ds) (WCancel i) (mkW c m (map (mark k) xs) (i :: ds))
(** worker.go:93 *)
| ws_cancel_end c m xs d1 i d2 :
    wstep (mkW c m xs (d1 ++ i :: d2)) (WCancelEnd i) (mkW c (mset m i None) xs (d1 ++ d2)).

Inductive wreach : wstate -> Prop :=
| wr_init : wreach w_init
| wr_step s l s' : wreach s -> wstep s l s' -> wreach s'.
(** histories in which no task is executed by this worker while another execution or a cancellation of the same
    task is in progress (no duplicated delivery) *)
Inductive wreach1 : wstate -> Prop :=
| wr1_init : wreach1 w_init
| wr1_step s l s' : wreach1 s -> wstep s l s' ->
    (forall k i, l = WEnter k i -> ~ In i (map x_task (w_execs s)) /\ ~ In i (w_cancelling s)) -> wreach1 s'.

(* ------------------------------------------------------------------ *)
(** * Proofs, part B *)
Lemma map_mark_key k xs : map x_key (map (mark k) xs) = map x_key xs.
Proof. rewrite map_map. apply map_ext. intros x. unfold mark. destruct (Nat.eqb _ _); reflexivity. Qed.
Lemma map_mark_task k xs : map x_task (map (mark k) xs) = map x_task xs.
Proof. rewrite map_map. apply map_ext. intros x. unfold mark. destruct (Nat.eqb _ _); reflexivity. Qed.

Definition winv (s : wstate) : Prop :=
  w_count s = Z.of_nat (length (w_execs s)) /\
  (forall i k, w_tasks s i = Some k -> exists x, In x (w_execs s) /\ x_key x = k /\ x_task x = i /\ x_phase x = InRun) /\
  NoDup (map x_key (w_execs s)).

Lemma map_nodup_inj {A B} (f : A -> B) xs x y : NoDup (map f xs) -> In x xs -> In y xs -> f x = f y -> x = y.
Proof.
  induction xs as [|a xs IH]; cbn; [tauto|]. intros Hn. inversion Hn as [|? ? Hni Hnd]; subst.
  intros [->|Hx] [->|Hy] E; auto; exfalso; apply Hni; [rewrite E|rewrite <- E]; now apply in_map.
Qed.
Lemma in_mid {A} (x y : A) l1 l2 : In x (l1 ++ y :: l2) <-> x = y \/ In x (l1 ++ l2).
Proof. rewrite !in_app_iff. cbn. intuition auto. Qed.

Lemma winv_step s l s' : winv s -> wstep s l s' -> winv s'.
Proof.
  intros (Hc & Hm & Hn) H. destruct H; unfold winv in *; cbn in *.
  - rewrite app_length; cbn. split; [lia|]. split.
    + intros i0 k0 E. destruct (Hm _ _ E) as (x & Hx & ?). exists x. split; [apply in_app_iff; auto|auto].
    + rewrite map_app. cbn. apply NoDup_app_comm || idtac. 
      apply NoDup_Add with (a := k) (l := map x_key xs); [|split; assumption].
      replace (map x_key xs ++ [k])%list with (map x_key xs ++ k :: [])%list by reflexivity.
      rewrite <- (app_nil_r (map x_key xs)) at 1. apply Add_app.
  - rewrite app_length in *; cbn in *. split; [lia|]. rewrite map_app in *. cbn in *. split; [|assumption].
    intros i0 k0. unfold mset. destruct (N.eqb_spec i0 i) as [->|Hne].
    + intros [= <-]. eexists. split; [apply in_mid; left; reflexivity|]. auto.
    + intros E. destruct (Hm _ _ E) as (x & Hx & E1 & E2 & E3). exists x. split; [|auto].
      apply in_mid in Hx as [->|Hx]; [discriminate|]. apply in_mid; auto.
  - rewrite app_length in *; cbn in *. split; [lia|]. rewrite map_app in *. cbn in *. split; [|assumption].
    intros i0 k0. unfold mset. destruct (N.eqb_spec i0 i) as [->|Hne]; [discriminate|].
    intros E. destruct (Hm _ _ E) as (x & Hx & E1 & E2 & E3). exists x. split; [|auto].
    apply in_mid in Hx as [->|Hx]; [cbn in E2; congruence|]. apply in_mid; auto.
  - rewrite app_length in *; cbn in *. split; [lia|]. rewrite map_app in *. cbn in *.
    split; [|eapply NoDup_remove_1; eassumption].
    intros i0 k0 E. destruct (Hm _ _ E) as (x & Hx & E1 & E2 & E3). exists x. split; [|auto].
    apply in_mid in Hx as [->|Hx]; [discriminate|assumption].
  - auto.
  - rewrite map_length, map_mark_key. split; [assumption|]. split; [|assumption].
    intros i0 k0 E. destruct (Hm _ _ E) as (x & Hx & E1 & E2 & E3). exists (mark k x). split; [apply in_map; assumption|].
    unfold mark. destruct (Nat.eqb _ _); cbn; auto.
  - split; [assumption|]. split; [|assumption].
    intros i0 k0. unfold mset. destruct (N.eqb_spec i0 i) as [->|Hne]; [discriminate|]. apply Hm.
Qed.
Lemma wreach_inv s : wreach s -> winv s.
Proof.
  induction 1; [|eapply winv_step; eassumption].
  split; [reflexivity|]. split; [discriminate|constructor].
Qed.

(** the reported task count is always the number of executions in progress, so it comes back to its previous value *)
Theorem C52_count : forall s, wreach s -> w_count s = Z.of_nat (length (w_execs s)) /\ (w_execs s = [] -> w_count s = 0 /\ forall i, w_tasks s i = None).
Proof.
  intros s H. destruct (wreach_inv s H) as (Hc & Hm & _). split; [assumption|]. intros E. rewrite E in *. split; [assumption|].
  intros i. destruct (w_tasks s i) eqn:Ei; [|reflexivity]. destruct (Hm _ _ Ei) as (x & [] & _).
Qed.
Print Assumptions C52_count.

(** cancelling a task this worker is not executing has no effect; cancelling never touches executions of other tasks *)
Theorem C52_cancel : forall s i s', wreach s -> wstep s (WCancel i) s' ->
  ((forall x, In x (w_execs s) -> x_task x <> i) -> s' = s) /\
  w_count s' = w_count s /\
  exists f, w_execs s' = map f (w_execs s) /\
    forall x, In x (w_execs s) -> x_task x <> i -> f x = x.
Proof.
  intros s i s' Hr H. destruct (wreach_inv s Hr) as (Hc & Hm & Hn). inversion H; subst; cbn in *.
  - split; [auto|]. split; [auto|]. exists (fun x => x). rewrite map_id. auto.
  - match goal with Hmi : m i = Some k |- _ => pose proof Hmi as E end.
    destruct (Hm _ _ E) as (x & Hx & E1 & E2 & E3). split; [intros Hno; exfalso; exact (Hno _ Hx E2)|]. split; [auto|].
    exists (mark k). split; [reflexivity|]. intros y Hy Hyi. unfold mark. destruct (Nat.eqb_spec (x_key y) k); [|reflexivity].
    exfalso. assert (y = x); [|congruence].
    eapply map_nodup_inj; [exact Hn|assumption|assumption|congruence].
Qed.
Print Assumptions C52_cancel.

Definition winv1 (s : wstate) : Prop :=
  NoDup (map x_task (w_execs s)) /\
  (forall x, In x (w_execs s) -> x_phase x = InRun -> x_cancelled x = false -> w_tasks s (x_task x) = Some (x_key x)) /\
  (forall x, In x (w_execs s) -> x_phase x = InCounted -> x_cancelled x = false /\ ~ In (x_task x) (w_cancelling s)) /\
  (forall x, In x (w_execs s) -> In (x_task x) (w_cancelling s) -> x_cancelled x = true \/ x_phase x = InLeft).

Lemma winv1_step s l s' : winv s -> winv1 s -> wstep s l s' ->
  (forall k i, l = WEnter k i -> ~ In i (map x_task (w_execs s)) /\ ~ In i (w_cancelling s)) -> winv1 s'.
Proof.
  intros (_ & Hmx & Hnk) (Hn & Hr & Hc & Hd) H Hl. destruct H; unfold winv1 in *; cbn in *.
  - destruct (Hl k i eq_refl) as [Hi1 Hi2]. split.
    { rewrite map_app. cbn. apply NoDup_Add with (a := i) (l := map x_task xs); [|split; assumption].
      rewrite <- (app_nil_r (map x_task xs)) at 1. apply Add_app. }
    assert (Hin : forall x, In x (xs ++ [mkExec k i InCounted false]) -> In x xs \/ x = mkExec k i InCounted false).
    { intros x Hx. apply in_app_iff in Hx as [|[<-|[]]]; auto. }
    repeat split.
    + intros x Hx. apply Hin in Hx as [Hx| ->]; [auto|]. cbn. discriminate.
    + apply Hin in H0 as [Hx| ->]; [apply Hc; auto|reflexivity].
    + apply Hin in H0 as [Hx| ->]; [apply Hc; auto|assumption].
    + intros x Hx. apply Hin in Hx as [Hx| ->]; [auto|]. cbn. tauto.
  - rewrite map_app in *. cbn in *. split; [assumption|].
    destruct (Hc (mkExec k i InCounted b)) as [Hb Hdi]; [apply in_mid; auto|reflexivity|]. cbn in Hb, Hdi. subst b.
    assert (Hne : forall x, In x (l1 ++ l2) -> x_task x <> i).
    { intros x Hx ->%eq_sym. apply NoDup_remove_2 in Hn. apply Hn. rewrite <- map_app. now apply in_map. }
    repeat split.
    + intros x Hx Hp Hcn. apply in_mid in Hx as [->|Hx]; cbn; unfold mset.
      * now rewrite N.eqb_refl.
      * destruct (N.eqb_spec (x_task x) i); [exfalso; eapply Hne; eassumption|]. apply Hr; auto. apply in_mid; auto.
    + apply in_mid in H as [->|Hx]; [discriminate|]. apply Hc; auto. apply in_mid; auto.
    + apply in_mid in H as [->|Hx]; [discriminate|]. apply Hc; auto. apply in_mid; auto.
    + intros x Hx. apply in_mid in Hx as [->|Hx]; cbn; [tauto|]. apply Hd, in_mid; auto.
  - rewrite map_app in *. cbn in *. split; [assumption|].
    assert (Hne : forall x, In x (l1 ++ l2) -> x_task x <> i).
    { intros x Hx ->%eq_sym. apply NoDup_remove_2 in Hn. apply Hn. rewrite <- map_app. now apply in_map. }
    repeat split.
    + intros x Hx Hp Hcn. apply in_mid in Hx as [->|Hx]; [discriminate|]. unfold mset.
      destruct (N.eqb_spec (x_task x) i); [exfalso; eapply Hne; eassumption|]. apply Hr; auto. apply in_mid; auto.
    + apply in_mid in H as [->|Hx]; [discriminate|]. apply Hc; auto. apply in_mid; auto.
    + apply in_mid in H as [->|Hx]; [discriminate|]. apply Hc; auto. apply in_mid; auto.
    + intros x Hx. apply in_mid in Hx as [->|Hx]; cbn; [tauto|]. apply Hd, in_mid; auto.
  - rewrite map_app in *. cbn in *. split; [eapply NoDup_remove_1; eassumption|].
    repeat split; intros; try (apply Hr; auto; apply in_mid; auto).
    + apply (Hc x); auto; apply in_mid; auto.
    + apply (Hc x); auto; apply in_mid; auto.
    + apply (Hd x); auto; apply in_mid; auto.
  - auto.
  - rewrite map_mark_task. split; [assumption|].
    assert (Hk : forall x, In x xs -> x_task x = i -> x_key x = k).
    { intros x Hx E. destruct (Hmx _ _ H) as (y & Hy & Ek & Ei & Ep). rewrite <- Ek. f_equal.
      eapply map_nodup_inj; [exact Hn|assumption|assumption|congruence]. }
    repeat split.
    + intros x Hx Hp Hcn. apply in_map_iff in Hx as (y & <- & Hy). unfold mark in *. destruct (Nat.eqb_spec (x_key y) k); cbn in *; [discriminate|auto].
    + rename H0 into Hx. apply in_map_iff in Hx as (y & <- & Hy). unfold mark in *. destruct (Nat.eqb_spec (x_key y) k); cbn in *.
      * exfalso. destruct (Hmx _ _ H) as (z & Hz & Ek & Ei & Ep).
        assert (y = z); [|congruence]. eapply map_nodup_inj; [exact Hnk|assumption|assumption|congruence].
      * apply (Hc y); auto.
    + rename H0 into Hx. apply in_map_iff in Hx as (y & <- & Hy). unfold mark in *.
      destruct (Nat.eqb_spec (x_key y) k); cbn in *.
      * exfalso. destruct (Hmx _ _ H) as (z & Hz & Ek & Ei & Ep).
        assert (y = z); [|congruence]. eapply map_nodup_inj; [exact Hnk|assumption|assumption|congruence].
      * intros [E|Hin]; [apply n; symmetry; symmetry; apply Hk; auto|]. eapply Hc; eauto.
    + intros x Hx Hin. apply in_map_iff in Hx as (y & <- & Hy). unfold mark in *.
      destruct (Nat.eqb_spec (x_key y) k); cbn in *; [auto|].
      destruct Hin as [E|Hin]; [exfalso; apply n, Hk; auto|auto].
  - split; [assumption|].
    assert (Hdi : forall x, In x xs -> x_task x = i -> x_cancelled x = true \/ x_phase x = InLeft).
    { intros x Hx E. apply Hd; auto. rewrite E. apply in_mid; auto. }
    repeat split.
    + intros x Hx Hp Hcn. unfold mset. destruct (N.eqb_spec (x_task x) i); [|auto].
      destruct (Hdi _ Hx e); congruence.
    + apply (Hc x); auto.
    + intros Hin. eapply (Hc x); eauto. apply in_mid; auto.
    + intros x Hx Hin. apply Hd; auto. apply in_mid; auto.
Qed.
Lemma wreach1_wreach s : wreach1 s -> wreach s.
Proof. induction 1; econstructor; eassumption. Qed.
Lemma wreach1_inv s : wreach1 s -> winv1 s.
Proof.
  induction 1; [|eapply winv1_step; eauto using wreach_inv, wreach1_wreach].
  unfold winv1, w_init; cbn. split; [constructor|]. split; [|split]; intros ? [].
Qed.

(** without duplicated deliveries, the cancellation of a task being executed reaches that execution *)
Theorem C52_cancel_reaches : forall s x s', wreach1 s -> In x (w_execs s) -> x_phase x = InRun ->
  wstep s (WCancel (x_task x)) s' ->
  x_cancelled x = true \/ In (mkExec (x_key x) (x_task x) InRun true) (w_execs s').
Proof.
  intros s x s' Hr Hx Hp H. destruct (x_cancelled x) eqn:Ec; [auto|]. right.
  destruct (wreach1_inv _ Hr) as (_ & Hm & _). specialize (Hm x Hx Hp Ec).
  inversion H; subst; cbn in *; [congruence|].
  match goal with E : m (x_task x) = Some _ |- _ => rewrite E in Hm; injection Hm as -> end.
  apply in_map_iff. exists x. split; [|assumption]. unfold mark. rewrite Nat.eqb_refl. now rewrite Hp.
Qed.
Print Assumptions C52_cancel_reaches.

(** With duplicated deliveries it is false: once the first of two executions of the same task has ended, the second
    runs on and cannot be cancelled any more. *)
Theorem C52_duplicate_uncancellable_refuted : exists s x, wreach s /\ In x (w_execs s) /\ x_phase x = InRun /\ x_cancelled x = false /\
  forall s', wstep s (WCancel (x_task x)) s' -> s' = s.
Proof.
  set (X k p := mkExec k 7%N p false).
  set (s2 := mkW 2 (mset (mset (fun _ => None) 7%N (Some 1%nat)) 7%N (Some 2%nat)) [X 1%nat InRun; X 2%nat InRun] []).
  assert (H : wreach s2).
  { eapply wr_step; [|exact (ws_register 2 _ [X 1%nat InRun] 2%nat 7%N false [] [])].
    eapply wr_step; [|exact (ws_register 2 _ [] 1%nat 7%N false [X 2%nat InCounted] [])].
    eapply wr_step; [|exact (ws_enter 1 _ [X 1%nat InCounted] [] 2%nat 7%N ltac:(cbn; intuition discriminate))].
    eapply wr_step; [|exact (ws_enter 0 _ [] [] 1%nat 7%N ltac:(cbn; auto))]. apply wr_init. }
  exists (mkW 1 (mset (w_tasks s2) 7%N None) [X 2%nat InRun] []), (X 2%nat InRun).
  split.
  { eapply wr_step; [|exact (ws_leave 2 _ [] 1%nat 7%N false [X 2%nat InRun] [])].
    eapply wr_step; [exact H|exact (ws_unregister 2 _ [] 1%nat 7%N false [X 2%nat InRun] [])]. }
  split; [cbn; auto|]. split; [reflexivity|]. split; [reflexivity|].
  intros s' Hs. inversion Hs; subst; [reflexivity|]. match goal with E : _ = Some _ |- _ => cbv in E; discriminate end.
Qed.
Print Assumptions C52_duplicate_uncancellable_refuted.

Example C52_cancel_nonvacuous : exists s x, wreach1 s /\ In x (w_execs s) /\ x_phase x = InRun /\ exists s', wstep s (WCancel (x_task x)) s' /\ s' <> s.
Proof.
  exists (mkW 1 (mset (fun _ => None) 7%N (Some 1%nat)) [mkExec 1 7%N InRun false] []), (mkExec 1 7%N InRun false).
  split.
  { eapply wr1_step; [|exact (ws_register 1 _ [] 1%nat 7%N false [] [])|discriminate].
    eapply wr1_step; [apply wr1_init|exact (ws_enter 0 _ [] [] 1%nat 7%N ltac:(cbn; auto))|cbn; auto]. }
  split; [cbn; auto|]. split; [reflexivity|]. eexists. split; [eapply ws_cancel; reflexivity|]. cbn. discriminate.
Qed.
