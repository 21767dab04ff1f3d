(** Property theorem C59: a job of tasks without children, alone in a deployment that works, is executed to its end. *)
From Verif Require Import SeqTools SpecLive Live Sim PropsSched.
Open Scope string_scope.
Open Scope list_scope.
Open Scope Z_scope.

(** In any idle state of the deployment, submit any accepted job [d] whose tasks have no children and let the
    messages be consumed in order by workers that complete every task.  After finitely many messages there is none left; the job is COMPLETED
    with its output as result and full progress; the only event announced says so; its rows are, in order, those of its tasks, each
    executed exactly once or skipped because of its condition; no other job or task has changed. *)
Theorem C59_job_completes : forall O b w0 d,
  reachable O (mkConfig w0 []) -> w_faults w0 = [] ->
  accepted d -> Forall regular (j_tasks d) -> evaluable O d -> served O d -> completes_all b ->
  exists n w' rows j' new je,
    fifo O b n (fst (run (api_submit d) w0), length (w_hist w0)) = (w', length (w_hist w')) /\
    w_tasks w' = w_tasks w0 ++ rows /\
    find_job (w_fresh w0) w' = Some j' /\ (forall i, i <> w_fresh w0 -> find_job i w' = find_job i w0) /\
    j_state j' = JCompleted /\ o_tmpl O (j_context j') None (j_output d) = inl (j_result j') /\
    j_position j' = Z.of_nat (S (length (j_tasks d))) /\ j_progress j' = 10000 /\
    w_hist w' = w_hist w0 ++ new ++ [MEvent "job.completed" je] /\ (forall tp x, ~ In (MEvent tp x) new) /\
    j_id je = w_fresh w0 /\ j_state je = JCompleted /\ j_result je = j_result j' /\
    worked O b d (w_fresh w0) (mkCtx (c_job (j_context d)) (j_inputs d) (j_secrets d) []) (j_tasks d) rows (handed new) (j_context j').
Proof.
  intros O b w0 d HR Hf Ha Hr He Hs Hb.
  destruct (job_runs O b w0 d HR Hf Ha Hr He Hs Hb) as (N & w' & k' & rows & j' & E & -> & F1 & F2 & F3 & F4 & F5 & F6 & F7 & new & je & G1 & G2 & G3 & G4 & G5 & G6).
  exists N, w', rows, j', new, je. repeat (split; [assumption|]). split; [|repeat (split; [assumption|]); exact G6].
  intros tp x Hin. unfold quiet in G5. rewrite Forall_forall in G5. exact (G5 _ Hin).
Qed.
Print Assumptions C59_job_completes.

(** What [worked] says about the rows and the tasks handed to workers, in numbers. *)
Theorem C59_each_once_in_order : forall O b d i c defs rows sent c', worked O b d i c defs rows sent c' ->
  length rows = length defs /\ map t_position rows = map Z.of_nat (seq 1 (length defs)) /\
  Forall (fun u => t_job u = i /\ (t_state u = TCompleted \/ t_state u = TSkipped)) rows /\
  map t_id sent = map t_id (filter (fun u => tstate_eqb (t_state u) TCompleted) rows).
Proof.
  induction 1 as [|defs rows sent c1 def t u c2 _ (I1 & I2 & I3 & I4) _ _ Hj Hp _ Hs _ _|defs rows sent c1 def t u k m c2 _ (I1 & I2 & I3 & I4) _ _ Hj Hp _ Hs _ Hm _ _];
    [repeat split; constructor| |];
    rewrite filter_app, !app_length, !map_app; cbn [length map filter]; rewrite Hs; cbn [tstate_eqb map];
    (split; [lia|]); rewrite Nat.add_1_r, seq_S, map_app, <- I2; cbn [map];
    (split; [rewrite Hp, I1; reflexivity|]);
    (split; [apply Forall_app; split; [exact I3|constructor; [split; [exact Hj|auto]|constructor]]|]).
  - now rewrite app_nil_r.
  - now rewrite I4, Hm.
Qed.
Print Assumptions C59_each_once_in_order.

(** nothing happens any more *)
Theorem C59_then_idle : forall O b n w, fifo O b n (w, length (w_hist w)) = (w, length (w_hist w)).
Proof.
  intros O b n w. induction n as [|n IH]; [reflexivity|]. cbn [fifo]. unfold fifo_step. cbn [fst snd].
  replace (nth_error (w_hist w) (length (w_hist w))) with (@None msg); [exact IH|]. symmetry. apply nth_error_None. lia.
Qed.
Print Assumptions C59_then_idle.

(** The schedule is one of the machine's: what is proved of all executions holds along it. *)
Theorem C59_is_an_execution : forall O b w0 d n,
  reachable O (mkConfig w0 []) -> accepted d -> completes_all b ->
  reachable O (mkConfig (fst (fifo O b n (fst (run (api_submit d) w0), length (w_hist w0)))) []).
Proof.
  intros O b w0 d n HR Ha Hb. assert (HR1 := submit_reachable O w0 d HR Ha). revert HR1.
  generalize (length (w_hist w0)) as k, (fst (run (api_submit d) w0)) as w. induction n as [|n IH]; intros k w HR1; [exact HR1|].
  cbn [fifo]. pose proof (fifo_step_reachable O b w k Hb HR1) as H. destruct (fifo_step O b (w, k)) as [w1 k1]. apply IH. exact H.
Qed.
Print Assumptions C59_is_an_execution.

(** ** Non-vacuity: an empty deployment, three tasks, the second of which has a false condition *)
Definition live_job : job := demo_job [simple "a" <| t_var := "x" |>; simple "b" <| t_if := " false" |>; simple "c" <| t_queue := "gpu" |>] <| j_output := "done" |>.
Definition steady : behaviour := mkBehaviour (fun k => Z.of_nat k)
  (fun _ t => t <| t_state := TRunning |> <| t_node := 7%N |>)
  (fun _ t => [t <| t_progress := 2500 |>; t <| t_progress := 7500 |>])
  (fun _ t => t <| t_state := TCompleted |> <| t_result := "r" |>).
Lemma steady_completes : completes_all steady.
Proof.
  intros k t. cbn [b_start b_progress b_done steady]. unfold worker_report.
  split; [repeat split; left; reflexivity|]. split; [reflexivity|].
  split; [repeat (constructor; [repeat split; left; reflexivity|]); constructor|]. split; [repeat split; left; reflexivity|reflexivity].
Qed.
Example C59_nonvacuous : let w0 := empty_world 0 [] in
  reachable O0 (mkConfig w0 []) /\ w_faults w0 = [] /\ accepted live_job /\ Forall regular (j_tasks live_job) /\ evaluable O0 live_job /\ served O0 live_job /\ completes_all steady.
Proof.
  cbn zeta. split; [exists (mkConfig (empty_world 0 []) []), []; split; [exists 0, []; reflexivity|constructor]|].
  split; [reflexivity|]. split; [unfold accepted; cbn; repeat split; repeat constructor; easy|]. split; [repeat constructor|].
  split; [|split; [|exact steady_completes]].
  - split; [|intros c; exists "done"; reflexivity]. intros c def [<-|[<-|[<-|[]]]]; eexists; vm_compute; reflexivity.
  - intros c def t [<-|[<-|[<-|[]]]] E; vm_compute in E; injection E as <-; reflexivity.
Qed.
(** and what that run looks like *)
Example C59_example : exists w k, fifo O0 steady 40 (fst (run (api_submit live_job) (empty_world 0 [])), 0%nat) = (w, k) /\
  k = length (w_hist w) /\ (map t_state (w_tasks w) = [TCompleted; TSkipped; TCompleted]) /\
  (map (fun j => (j_state j, j_result j, j_progress j, c_tasks (j_context j))) (w_jobs w) = [(JCompleted, "done", 10000, [("x", "r")])]) /\
  (map (fun t => (t_name t, t_queue t)) (handed (w_hist w)) = [("a", "default"); ("c", "gpu")]).
Proof. do 2 eexists. split; [vm_compute; reflexivity|]. vm_compute. auto 10. Qed.
