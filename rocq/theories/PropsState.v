(** Property theorems: state machines, cancellation, retries, panics, isolation (C01-C04, C13, C25, C57, C60),
    over every execution of the interleaving machine (System.v): any number of coordinators and API calls, any
    interleaving of their operations, any failing operation, any crash, and messages lost, delayed, reordered or duplicated
    at will. Vocabulary: SpecState.v, SpecTrace.v. *)
From Verif Require Import StateProofs Sim.
Open Scope string_scope.
Open Scope list_scope.
Open Scope Z_scope.

Ltac cmds := repeat (constructor; [cbn; unfold accepted; cbn; repeat split; repeat constructor; easy|]); try constructor.

(** ** C01 *)
Theorem C01_job_state_machine : forall O c l c' i j,
  reachable O c -> step O c l c' -> find_job i (cw c) = Some j ->
  exists j', find_job i (cw c') = Some j' /\
    (j_state j' = j_state j \/ exists o, l = LOp o /\ job_of o = i /\ job_edge o (j_state j) (j_state j')).
Proof. exact job_state_machine_l. Qed.
Print Assumptions C01_job_state_machine.

Theorem C01_new_jobs_are_pending : forall O c l c' i j',
  reachable O c -> step O c l c' -> find_job i (cw c) = None -> find_job i (cw c') = Some j' ->
  exists o, l = LOp o /\ job_new j'.
Proof. exact job_created. Qed.
Print Assumptions C01_new_jobs_are_pending.

(** the position only changes by 1, in the handling of a completion, or is set to 1 by (re)starting *)
Theorem C01_position_steps : forall O c l c' i j,
  reachable O c -> step O c l c' -> find_job i (cw c) = Some j ->
  exists j', find_job i (cw c') = Some j' /\ jdef j' = jdef j /\
    (j_position j' = j_position j \/ (exists o, l = LOp o /\ from_job_msg JPending o /\ j_position j' = 1) \/
     (exists o, l = LOp o /\ from_queue QUEUE_COMPLETED o /\ j_position j' = j_position j + 1)).
Proof.
  intros O c l c' i j HR S E. destruct (job_step_cases _ _ _ _ _ _ HR S E) as (j' & E' & [Hx|(o & -> & H)]); exists j'; (split; [exact E'|]).
  - subst; auto.
  - destruct H as (Hd & _ & _ & _ & Hp & _). split; [exact Hd|]. destruct Hp as [?|[[? ?]|[? ?]]]; [auto|right; left; eauto|right; right; eauto].
Qed.
Print Assumptions C01_position_steps.

(** the handled message was delivered *)
Theorem C01_only_delivered_messages_act : forall O c0 ls c m,
  initial c0 -> exec O c0 ls c -> In (LOp (OMsg m)) ls -> In (LDeliver m) ls.
Proof. exact op_delivered_l. Qed.
Print Assumptions C01_only_delivered_messages_act.

Definition two_tasks := demo_job [simple "a"; simple "b"].
Definition run_all : list cmd :=
  [CApi (OSubmit two_tasks); CRun 0 100; CDeliver 0; CRun 1 100; CComplete 1 "r"; CDeliver 2; CRun 2 100;
   CDeliver 3; CRun 3 100; CComplete 4 "s"; CDeliver 5; CRun 4 100].
Example C01_nonvacuous : exists c j, reachable O0 c /\ find_job 1%N (cw c) = Some j /\ j_state j = JCompleted /\ j_position j = 3.
Proof.
  exists (sim_c O0 start run_all). eexists. split; [apply sim_c_reachable; [cmds|reflexivity]|]. vm_compute. auto.
Qed.

(** ** C02 *)
Theorem C02_completed_forever : forall O i c0 ls1 c1 ls2 c2 j,
  initial c0 -> exec O c0 ls1 c1 -> exec O c1 ls2 c2 ->
  (submissions_delivered i (ls1 ++ ls2) <= 1)%nat ->
  find_job i (cw c1) = Some j -> j_state j = JCompleted ->
  exists j2, find_job i (cw c2) = Some j2 /\ j_state j2 = JCompleted /\ job_outcome j2 = job_outcome j.
Proof. exact completed_forever_l. Qed.
Print Assumptions C02_completed_forever.

Example C02_nonvacuous : exists ls c j, exec O0 start ls c /\ (submissions_delivered 1%N ls <= 1)%nat /\
  find_job 1%N (cw c) = Some j /\ j_state j = JCompleted /\ exists ls2 c2, exec O0 c ls2 c2 /\ ls2 <> [].
Proof.
  exists (sim_l O0 start run_all), (sim_c O0 start run_all). eexists. split; [apply sim_c_exec; [cmds|reflexivity]|].
  split; [vm_compute; lia|]. split; [vm_compute; reflexivity|]. split; [reflexivity|].
  exists (sim_l O0 (sim_c O0 start run_all) [CDeliver 2; CRun 5 100]), (sim_c O0 (sim_c O0 start run_all) [CDeliver 2; CRun 5 100]).
  split; [apply sim_c_exec; [cmds|reflexivity]|]. vm_compute. discriminate.
Qed.

(** Without the hypothesis the property is false: delivering the submission message again restarts a completed job. *)
Theorem C02_duplicate_submission_refuted : exists O c ls c' i j j',
  reachable O c /\ exec O c ls c' /\ find_job i (cw c) = Some j /\ j_state j = JCompleted /\
  find_job i (cw c') = Some j' /\ j_state j' = JScheduled /\ submissions_delivered i ls = 1%nat.
Proof.
  exists O0, (sim_c O0 start run_all), (sim_l O0 (sim_c O0 start run_all) [CDeliver 0; CRun 5 100]),
    (sim_c O0 (sim_c O0 start run_all) [CDeliver 0; CRun 5 100]), 1%N. do 2 eexists.
  split; [apply sim_c_reachable; [cmds|reflexivity]|]. split; [apply sim_c_exec; [cmds|reflexivity]|]. vm_compute. auto 10.
Qed.
Print Assumptions C02_duplicate_submission_refuted.

(** ** C03 *)
Theorem C03_cancelled_or_failed_until_restart : forall O i c0 ls1 c1 ls2 c2 j,
  initial c0 -> exec O c0 ls1 c1 -> exec O c1 ls2 c2 ->
  (submissions_delivered i (ls1 ++ ls2) <= 1)%nat -> ~ restart_handled i ls2 ->
  find_job i (cw c1) = Some j -> j_state j = JCancelled \/ j_state j = JFailed ->
  exists j2, find_job i (cw c2) = Some j2 /\ j_state j2 = j_state j /\ job_outcome j2 = job_outcome j.
Proof. exact terminal_until_restart_l. Qed.
Print Assumptions C03_cancelled_or_failed_until_restart.

Theorem C03_restarts_are_requested : forall O c0 ls c j,
  initial c0 -> exec O c0 ls c -> In (MJob j) (w_hist (cw c)) -> j_state j = JRestart -> In (LApi (ORestart (j_id j))) ls.
Proof. exact restart_by_user_l. Qed.
Print Assumptions C03_restarts_are_requested.

(** a late completion of the running task arrives after the cancellation *)
Definition cancel_run : list cmd :=
  [CApi (OSubmit two_tasks); CRun 0 100; CDeliver 0; CRun 1 100; CStart 1 noid; CDeliver 2; CRun 2 100;
   CApi (OCancel 1%N); CRun 3 100; CDeliver 3; CRun 4 100].
Example C03_nonvacuous : exists ls1 c ls2 c2 j j2,
  exec O0 start ls1 c /\ exec O0 c ls2 c2 /\ (submissions_delivered 1%N (ls1 ++ ls2) <= 1)%nat /\ ~ restart_handled 1%N ls2 /\
  find_job 1%N (cw c) = Some j /\ j_state j = JCancelled /\ (exists m, In (LDeliver m) ls2) /\
  find_job 1%N (cw c2) = Some j2 /\ j_state j2 = JCancelled.
Proof.
  exists (sim_l O0 start cancel_run), (sim_c O0 start cancel_run),
    (sim_l O0 (sim_c O0 start cancel_run) [CComplete 1 "late"; CDeliver 4; CRun 5 100]),
    (sim_c O0 (sim_c O0 start cancel_run) [CComplete 1 "late"; CDeliver 4; CRun 5 100]). do 2 eexists.
  split; [apply sim_c_exec; [cmds|reflexivity]|]. split; [apply sim_c_exec; [cmds|reflexivity]|].
  split; [vm_compute; lia|]. split.
  { intros (j & Hin & _ & Hs). vm_compute in Hin. intuition (try discriminate). }
  split; [vm_compute; reflexivity|]. split; [reflexivity|]. split; [eexists; vm_compute; eauto|]. split; vm_compute; reflexivity.
Qed.

(** ** C04 *)
Theorem C04_task_state_machine : forall O c l c' i t,
  reachable O c -> step O c l c' -> find_task i (cw c) = Some t ->
  exists t', find_task i (cw c') = Some t' /\
    (t_state t' = t_state t \/ exists o, l = LOp o /\ job_of o = t_job t /\ task_edge o i (t_state t) (t_state t')).
Proof. exact task_state_machine_l. Qed.
Print Assumptions C04_task_state_machine.

Theorem C04_finished_tasks_stay_finished : forall O i c ls c' t,
  reachable O c -> exec O c ls c' -> find_task i (cw c) = Some t ->
  t_state t = TCompleted \/ t_state t = TFailed \/ t_state t = TCancelled ->
  ~ pending_handled i (t_job t) ls ->
  exists t', find_task i (cw c') = Some t' /\ (t_state t' = t_state t \/ t_state t' = TCancelled) /\
    t_result t' = t_result t /\ t_completed t' = t_completed t /\ t_error t' = t_error t /\ t_failed t' = t_failed t.
Proof. exact task_finished_l. Qed.
Print Assumptions C04_finished_tasks_stay_finished.

Theorem C04_new_tasks : forall O c l c' i t,
  reachable O c -> step O c l c' -> find_task i (cw c) = None -> find_task i (cw c') = Some t ->
  exists o, l = LOp o /\ task_new o t.
Proof. exact task_created. Qed.
Print Assumptions C04_new_tasks.

(** COMPLETED -> CANCELLED does occur: a cancellation that read the task as active overwrites its completion. *)
Definition race1 : list cmd :=
  [CApi (OSubmit two_tasks); CRun 0 100; CDeliver 0; CRun 1 100; CStart 1 noid; CDeliver 2; CRun 2 100; CComplete 1 "done";
   CApi (OCancel 1%N); CRun 3 100; CDeliver 4; CRun 4 2;  (* the cancel thread has read the active tasks *)
   CDeliver 3; CRun 5 100].
Theorem C04_completed_to_cancelled_refuted : exists O c ls c' i t t',
  reachable O c /\ exec O c ls c' /\ find_task i (cw c) = Some t /\ t_state t = TCompleted /\
  ~ pending_handled i (t_job t) ls /\ find_task i (cw c') = Some t' /\ t_state t' = TCancelled.
Proof.
  exists O0, (sim_c O0 start race1), (sim_l O0 (sim_c O0 start race1) [CRun 4 100]), (sim_c O0 (sim_c O0 start race1) [CRun 4 100]), 2%N.
  do 2 eexists. split; [apply sim_c_reachable; [cmds|reflexivity]|]. split; [apply sim_c_exec; [cmds|reflexivity]|].
  split; [vm_compute; reflexivity|]. split; [reflexivity|]. split.
  { intros [(x & Hin & _)|(x & Hin & _ & Hs)]; vm_compute in Hin; intuition (try discriminate);
      match goal with H : _ = LOp _ |- _ => injection H as <-; discriminate end. }
  split; vm_compute; reflexivity.
Qed.
Print Assumptions C04_completed_to_cancelled_refuted.
Example C04_nonvacuous : exists c t, reachable O0 c /\ find_task 2%N (cw c) = Some t /\ t_state t = TCompleted.
Proof. exists (sim_c O0 start run_all). eexists. split; [apply sim_c_reachable; [cmds|reflexivity]|]. vm_compute. auto. Qed.

(** ** C13 (attempts never exceed the limit) and C25 (redeliveries bounded), in the store and in every message *)
Theorem C13_C25_bounds : forall O c t, reachable O c ->
  (In t (w_tasks (cw c)) \/ (exists q, In (MTask q t) (w_hist (cw c))) \/ In (MProgress t) (w_hist (cw c))) ->
  (forall r, t_retry t = Some r -> 0 <= r_attempts r <= Z.max 0 (r_limit r)) /\ 0 <= t_redelivered t <= 5.
Proof.
  intros O c t HR H. destruct (retry_bound_l _ _ _ HR H) as [H1 H2]. split; [|exact H2]. intros r E. rewrite E in H1. exact H1.
Qed.
Print Assumptions C13_C25_bounds.
Definition retry_run : list cmd :=
  [CApi (OSubmit (demo_job [simple "a" <| t_retry := Some (mkRetry 2 0) |>])); CRun 0 100; CDeliver 0; CRun 1 100;
   CFail 1 "boom"; CDeliver 2; CRun 2 100; CDeliver 3; CRun 3 100; CFail 4 "boom"; CDeliver 5; CRun 4 100; CDeliver 6; CRun 5 100; CFail 7 "boom"; CDeliver 8; CRun 6 100].
Example C13_nonvacuous : exists c t j, reachable O0 c /\ In t (w_tasks (cw c)) /\ t_retry t = Some (mkRetry 2 2) /\ t_state t = TFailed /\
  length (w_tasks (cw c)) = 3%nat /\ find_job 1%N (cw c) = Some j /\ j_state j = JFailed.
Proof.
  exists (sim_c O0 start retry_run). eexists. eexists. split; [apply sim_c_reachable; [cmds|reflexivity]|].
  split; [vm_compute; right; right; left; reflexivity|]. vm_compute. auto.
Qed.

(** ** C57 *)
Theorem C57_panics_only_there : forall O c o r,
  reachable O c -> In (o, Done r) (cthreads c) -> r = Panic -> panic_site o.
Proof. intros O c o r HR Hin ->. exact (reachable_outcome _ _ _ _ HR Hin). Qed.
Print Assumptions C57_panics_only_there.
(** the recursion budget of the model is never exhausted: [OutOfFuel] is unreachable *)
Theorem fuel_suffices : forall O c o, reachable O c -> ~ In (o, Done OutOfFuel) (cthreads c).
Proof. intros O c o HR Hin. exact (reachable_outcome _ _ _ _ HR Hin). Qed.
Print Assumptions fuel_suffices.

Definition empty_subjob : task := blank_task <| t_name := "sub" |> <| t_subjob := Some (mkSubJob noid "s" "" [] [] [] None "" false []) |>.
Definition panic1 : list cmd :=
  [CApi (OSubmit (demo_job [empty_subjob])); CRun 0 100; CDeliver 0; CRun 1 100; CDeliver 1; CRun 2 100].
Theorem C57_empty_subjob_refuted : exists O c o, reachable O c /\ In (o, Done Panic) (cthreads c).
Proof.
  exists O0, (sim_c O0 start panic1). eexists. split; [apply sim_c_reachable; [cmds|reflexivity]|]. vm_compute. right; right; left. reflexivity.
Qed.
Print Assumptions C57_empty_subjob_refuted.
(** cancelling a sub-job while a lookup of its parent fails *)
Definition sub_task : task := blank_task <| t_name := "sub" |> <| t_subjob := Some (mkSubJob noid "s" "" [simple "x"] [] [] None "" false []) |>.
Definition panic2 : list cmd :=
  [CApi (OSubmit (demo_job [sub_task])); CRun 0 100; CDeliver 0; CRun 1 100; CDeliver 1; CRun 2 100;
   CApi (OCancel 3%N); CRun 3 100; CDeliver 3; CEnv 1001 [false; true]; CRun 4 100].
Theorem C57_cancel_subjob_refuted : exists O c j, reachable O c /\ In (OMsg (MJob j), Done Panic) (cthreads c) /\ j_state j = JCancelled /\ j_tasks j <> [].
Proof.
  exists O0, (sim_c O0 start panic2). eexists. split; [apply sim_c_reachable; [cmds|reflexivity]|].
  split; [vm_compute; right; right; right; right; left; reflexivity|]. vm_compute. split; [reflexivity|discriminate].
Qed.
Print Assumptions C57_cancel_subjob_refuted.

(** ** C60 *)
Theorem C60_other_jobs_untouched : forall O c l c' i j,
  reachable O c -> step O c l c' -> find_job i (cw c) = Some j -> (forall o, l = LOp o -> job_of o <> i) ->
  find_job i (cw c') = Some j.
Proof. exact isolation_jobs_l. Qed.
Print Assumptions C60_other_jobs_untouched.
Theorem C60_other_tasks_untouched : forall O c l c' i t,
  reachable O c -> step O c l c' -> find_task i (cw c) = Some t -> (forall o, l = LOp o -> job_of o <> t_job t) ->
  find_task i (cw c') = Some t.
Proof. exact isolation_tasks_l. Qed.
Print Assumptions C60_other_tasks_untouched.
Theorem C60_new_tasks_belong_to_the_job : forall O c l c' i t,
  reachable O c -> step O c l c' -> find_task i (cw c) = None -> find_task i (cw c') = Some t ->
  exists o, l = LOp o /\ job_of o = t_job t.
Proof. exact isolation_new_l. Qed.
Print Assumptions C60_new_tasks_belong_to_the_job.
