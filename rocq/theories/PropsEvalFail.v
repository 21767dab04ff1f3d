(** Property theorems: expressions that cannot be evaluated, where they are found after the first task of a job (C27):
    children of parallel and each tasks, and retries.  Handlers alone, without faults, in any reachable state. *)
From Verif Require Import SeqTools InvSched InvMsgs Sim PropsSched PropsFan PropsComposite PropsState SpecFail PropsFail.
Open Scope string_scope.
Open Scope list_scope.
Open Scope Z_scope.

Section Parallel.
Variables (O : oracle) (t : task) (j : job) (clk : time).
Lemma parallel_run_to l rest : j_id j = t_job t -> forall w, w_faults w = [] -> ids_below w -> (exists j', find_job (t_job t) w = Some j') ->
  (forall p, In p l -> exists d, eval_task (o_tmpl O (j_context j) None) p = inl d) ->
  exists cs, pkids O t j clk (w_fresh w) l cs /\
    run (parallel_children O t j clk (l ++ rest)) w = run (parallel_children O t j clk rest) (spawned w cs cs).
Proof.
  intros Hj. induction l as [|x l IH]; intros w Hf Hb Hex Hev.
  - exists []. split; [constructor|]. cbn [app]. now rewrite spawned_nil.
  - destruct (Hev x (or_introl eq_refl)) as (d & Hd).
    cbn [app parallel_children]. rewrite run_bind, run_new_id. rewrite Hj.
    set (w1 := w <| w_fresh := N.succ (w_fresh w) |>).
    match goal with |- context [evaluate_task O ?et _] => change et with (identity (w_fresh w) (t_job t) (t_id t) TPending (t_position t) (Some clk) x) end.
    unfold evaluate_task. rewrite eval_identity, Hd. set (c := identity _ _ _ _ _ _ d). cbn iota.
    rewrite run_bind. destruct Hex as (j' & Ej').
    erewrite run_create_task; [|exact Hf| |exact Ej'].
    2:{ unfold w1. change (find_task (w_fresh w) w = None). now apply fresh_not_found. }
    set (w2 := w1 <| w_tasks := w_tasks w1 ++ [db_task c] |>).
    assert (Hb2 : ids_below w2) by (apply (ids_below_step w c); [exact Hb|reflexivity]).
    unfold publish_task. rewrite run_bind, run_publish by exact Hf.
    destruct (IH (w2 <| w_hist := w_hist w2 ++ [MTask QUEUE_PENDING c] |>)) as (cs & Hk & Hr); [exact Hf|exact Hb2|exists j'; exact Ej'|auto with datatypes|].
    exists (c :: cs). split; [constructor; [exists d; auto|exact Hk]|]. fold (publish_task QUEUE_PENDING). rewrite Hr. f_equal.
    etransitivity; [|apply (spawned_cons w c cs cs true)]. reflexivity.
Qed.
End Parallel.

(** C27: if the expressions of one task of a parallel task cannot be evaluated, the tasks before it are started, neither it nor
    any after it exists, and the parallel task is reported failed with the error. *)
Theorem C27_parallel_child : forall O c fuel t p j before bad_one others err,
  reachable O c -> w_faults (cw c) = [] -> In (MTask QUEUE_PENDING t) (w_hist (cw c)) ->
  ~ false_padded (t_if t) -> t_parallel t = Some p -> find_job (t_job t) (cw c) = Some j ->
  p_tasks p = before ++ bad_one :: others ->
  (forall x, In x before -> exists d, eval_task (o_tmpl O (j_context j) None) x = inl d) ->
  eval_task (o_tmpl O (j_context j) None) bad_one = inr err ->
  exists w' cs u,
    run (deliver O fuel (MTask QUEUE_PENDING t)) (cw c) = (w', Ok tt) /\
    length cs = length before /\
    (forall k ch, nth_error cs k = Some ch -> exists x, nth_error before k = Some x /\
       parallel_child O t j (w_clock (cw c)) x (w_fresh (cw c) + N.of_nat k)%N ch) /\
    find_task (t_id t) (cw c) = Some u /\
    added (cw c) (put_task (u <| t_state := TRunning |> <| t_scheduled := Some (w_clock (cw c)) |> <| t_started := Some (w_clock (cw c)) |>)
                           (w_tasks (cw c))) cs w' /\
    published (cw c) w' (map (MTask QUEUE_PENDING) cs ++ [MTask QUEUE_ERROR (t <| t_error := err |> <| t_state := TFailed |>)]) /\
    same_jobs (cw c) w'.
Proof.
  intros O c fuel t p j before bad_one others err HR Hf Hin Hif Hp Hj Hps Hev Hbad.
  pose proof (reachable_inv _ _ HR) as HI. pose proof (inv_hist _ HI _ Hin) as (Hok & u & Hu & Hab).
  set (w := cw c) in *. pose proof (find_job_id _ _ _ Hj) as Hji.
  set (u' := u <| t_state := TRunning |> <| t_scheduled := Some (w_clock w) |> <| t_started := Some (w_clock w) |>).
  set (w1 := w <| w_tasks := put_task u' (w_tasks w) |>).
  assert (Hb1 : ids_below w1).
  { intros x Hx. change (w_fresh w1) with (w_fresh w). apply (in_map t_id) in Hx. cbn in Hx. rewrite map_id_put_task in Hx.
    apply in_map_iff in Hx as (y & <- & Hy). now apply Inv_ids_below. }
  destruct (parallel_run_to O t j (w_clock w) before (bad_one :: others) Hji w1 Hf Hb1 (ex_intro _ j Hj) Hev) as (cs & Hk & Hr).
  set (w2 := spawned w1 cs cs) in *.
  assert (Hf2 : w_faults w2 = []) by exact Hf.
  set (w3 := w2 <| w_fresh := N.succ (w_fresh w2) |>).
  exists (w3 <| w_hist := w_hist w3 ++ [MTask QUEUE_ERROR (t <| t_error := err |> <| t_state := TFailed |>)] |>), cs, u. split.
  { rewrite deliver_pending. unfold task_wrapper. rewrite run_catch. unfold pending_handler.
    destruct (String.eqb (trim_space (t_if t)) "false") eqn:Ef; [apply String.eqb_eq in Ef; apply trim_false in Ef; contradiction|].
    unfold schedule_task. rewrite Hp. unfold schedule_parallel. rewrite run_bind, run_now, run_bind.
    erewrite run_update_task; [|exact Hf|exact Hu|reflexivity]. fold u'. fold w1.
    rewrite run_bind, run_get_job by exact Hf. change (find_job (t_job t) w1) with (find_job (t_job t) w). rewrite Hj, Hps, Hr.
    cbn [parallel_children]. rewrite run_bind, run_new_id. rewrite Hji.
    match goal with |- context [evaluate_task O ?et _] => change et with (identity (w_fresh w2) (t_job t) (t_id t) TPending (t_position t) (Some (w_clock w)) bad_one) end.
    unfold evaluate_task. rewrite eval_identity, Hbad. fold w3. unfold publish_task. rewrite run_publish by exact Hf2. reflexivity. }
  split; [exact (pkids_length _ _ _ _ _ _ _ Hk)|]. split; [intros k ch Ek; exact (pkids_nth _ _ _ _ _ _ _ Hk k ch Ek)|].
  split; [exact Hu|]. split; [reflexivity|]. split; [|reflexivity].
  exact (eq_sym (app_assoc _ _ _)).
Qed.
Print Assumptions C27_parallel_child.

Section Each.
Variables (O : oracle) (t : task) (e : eachT task) (j : job) (clk : time).
Lemma each_run_to def k l ds rest : j_id j = t_job t -> instances O (j_context j) (first_set [e_var e; "item"]) k def l ds ->
  forall w, w_faults w = [] -> ids_below w -> (exists j', find_job (t_job t) w = Some j') ->
  run (each_children O t e j clk def (Z.of_nat k) (l ++ rest)) w =
  run (each_children O t e j clk (fold_left write_cmds ds def) (Z.of_nat (k + length l)) rest)
      (spawned w (kids t e clk k (w_fresh w) ds) (pubs e k (kids t e clk k (w_fresh w) ds))).
Proof.
  intros Hj Hi. induction Hi as [k def|k def x l d ds Hd Hi IH]; intros w Hf Hb Hex.
  - cbn [app fold_left length kids pubs]. rewrite spawned_nil, Nat.add_0_r. reflexivity.
  - cbn [app each_children]. rewrite run_bind, run_new_id. rewrite Hj. fold (firedb e k).
    set (w1 := w <| w_fresh := N.succ (w_fresh w) |>).
    match goal with |- context [evaluate_each_task O ?et _ _ _ _] => change et with (identity (w_fresh w) (t_job t) (t_id t) (if each_fired e (Z.of_nat k) then TPending else TCreated) (t_position t) (Some clk) (clone_task def)) end.
    unfold evaluate_each_task. rewrite eval_identity. rewrite <- orelse_first in Hd. unfold instance_of in Hd. rewrite Hd.
    change (each_fired e (Z.of_nat k)) with (firedb e k). cbn iota. rewrite write_cmds_identity.
    set (c := identity _ _ _ _ _ _ d).
    rewrite run_bind. destruct Hex as (j' & Ej').
    erewrite run_create_task; [|exact Hf| |exact Ej'].
    2:{ unfold w1. change (find_task (w_fresh w) w = None). now apply fresh_not_found. }
    set (w2 := w1 <| w_tasks := w_tasks w1 ++ [db_task c] |>).
    assert (Hb2 : ids_below w2) by (apply (ids_below_step w c); [exact Hb|reflexivity]).
    set (w3 := w2 <| w_hist := w_hist w2 ++ (if firedb e k then [MTask QUEUE_PENDING c] else []) |>).
    assert (E3 : run (if firedb e k then publish_task QUEUE_PENDING c else ret tt) w2 = (w3, Ok tt)).
    { unfold w3. destruct (firedb e k); [unfold publish_task; rewrite run_publish by exact Hf; reflexivity|].
      rewrite run_ret. f_equal. apply world_eq; try reflexivity. cbn. now rewrite app_nil_r. }
    rewrite run_bind, E3. replace (Z.of_nat k + 1) with (Z.of_nat (S k)) by lia.
    rewrite (IH w3 Hf Hb2 (ex_intro _ j' Ej')). cbn [fold_left length]. replace (k + S (length l))%nat with (S k + length l)%nat by lia.
    f_equal. cbn [kids pubs]. unfold w3, w2, w1. etransitivity; [|apply (spawned_cons w c (kids t e clk (S k) (N.succ (w_fresh w)) ds) (pubs e (S k) (kids t e clk (S k) (N.succ (w_fresh w)) ds)) (firedb e k))]. reflexivity.
Qed.
End Each.

(** C27: the same for the child of element [x] of an each task: the children of the elements before it exist, as many of them
    started as the concurrency allows; no other child exists and the each task is reported failed. *)
Theorem C27_each_child : forall O c fuel t e j before x others ds err,
  reachable O c -> w_faults (cw c) = [] -> In (MTask QUEUE_PENDING t) (w_hist (cw c)) ->
  ~ false_padded (t_if t) -> t_parallel t = None -> t_each t = Some e ->
  find_job (t_job t) (cw c) = Some j -> o_list O (j_context j) (e_list e) = inl (Some (before ++ x :: others)) ->
  instances O (j_context j) (first_set [e_var e; "item"]) 0 (e_task e) before ds ->
  eval_task (o_tmpl O (j_context j) (Some (first_set [e_var e; "item"], Z.of_nat (length before), x)))
            (clone_task (fold_left write_cmds ds (e_task e))) = inr err ->
  exists w' cs u u',
    run (deliver O fuel (MTask QUEUE_PENDING t)) (cw c) = (w', Ok tt) /\
    length cs = length before /\
    (forall k ch, nth_error cs k = Some ch -> exists d, nth_error ds k = Some d /\
       ch = child_from t e (w_clock (cw c)) k d (w_fresh (cw c) + N.of_nat k)%N) /\
    find_task (t_id t) (cw c) = Some u /\ t_state u' = TRunning /\ t_id u' = t_id u /\
    added (cw c) (put_task u' (w_tasks (cw c))) cs w' /\
    published (cw c) w' (map (MTask QUEUE_PENDING) (firstn (released_at_once (e_concurrency e) (length before)) cs) ++
                         [MTask QUEUE_ERROR (t <| t_error := err |> <| t_state := TFailed |>)]) /\
    same_jobs (cw c) w'.
Proof.
  intros O c fuel t e j before x others ds err HR Hf Hin Hif Hp He Hj Hl Hev Hbad.
  pose proof (reachable_inv _ _ HR) as HI. pose proof (inv_hist _ HI _ Hin) as (Hok & u & Hu & Hab).
  set (w := cw c) in *.
  assert (Heu : exists eu, t_each u = Some eu).
  { destruct Hab as (_ & _ & _ & _ & _ & H & _). rewrite He in H. destruct (t_each u); [eauto|discriminate]. }
  destruct Heu as (eu & Heu). pose proof (find_job_id _ _ _ Hj) as Hji.
  set (u' := u <| t_state := TRunning |> <| t_scheduled := Some (w_clock w) |> <| t_started := Some (w_clock w) |>
               <| t_each := Some (eu <| e_size := Z.of_nat (length (before ++ x :: others)) |> <| e_index := e_concurrency eu |>) |>).
  set (w1 := w <| w_tasks := put_task u' (w_tasks w) |>).
  assert (Hb1 : ids_below w1).
  { intros y Hx. change (w_fresh w1) with (w_fresh w). apply (in_map t_id) in Hx. cbn in Hx. rewrite map_id_put_task in Hx.
    apply in_map_iff in Hx as (z & <- & Hy). now apply Inv_ids_below. }
  pose proof (each_run_to O t e j (w_clock w) _ _ _ _ (x :: others) Hji Hev w1 Hf Hb1 (ex_intro _ j Hj)) as Hr.
  change (w_fresh w1) with (w_fresh w) in Hr. set (cs := kids t e (w_clock w) 0 (w_fresh w) ds) in *.
  set (w2 := spawned w1 cs (pubs e 0 cs)) in *. assert (Hf2 : w_faults w2 = []) by exact Hf.
  set (w3 := w2 <| w_fresh := N.succ (w_fresh w2) |>).
  assert (Hlen : length cs = length before) by (unfold cs; rewrite kids_length; apply (instances_length _ _ _ _ _ _ _ Hev)).
  exists (w3 <| w_hist := w_hist w3 ++ [MTask QUEUE_ERROR (t <| t_error := err |> <| t_state := TFailed |>)] |>), cs, u, u'. split.
  { rewrite deliver_pending. unfold task_wrapper. rewrite run_catch. unfold pending_handler.
    destruct (String.eqb (trim_space (t_if t)) "false") eqn:Ef; [apply String.eqb_eq in Ef; apply trim_false in Ef; contradiction|].
    unfold schedule_task. rewrite Hp, He. unfold schedule_each. rewrite run_bind, run_now, run_bind, run_get_job, Hj by exact Hf.
    rewrite Hl, run_bind. erewrite run_update_task; [|exact Hf|exact Hu|unfold mark_each_running; rewrite Heu; reflexivity].
    change 0 with (Z.of_nat 0). fold u'. fold w1. rewrite Hr. cbn [Nat.add each_children]. rewrite run_bind, run_new_id. rewrite Hji.
    match goal with |- context [evaluate_each_task O ?et _ _ _ _] => change et with (identity (w_fresh w2) (t_job t) (t_id t) (if each_fired e (Z.of_nat (length before)) then TPending else TCreated) (t_position t) (Some (w_clock w)) (clone_task (fold_left write_cmds ds (e_task e)))) end.
    unfold evaluate_each_task. rewrite eval_identity. rewrite <- orelse_first in Hbad. rewrite Hbad.
    fold w3. unfold publish_task. rewrite run_publish by exact Hf2. reflexivity. }
  split; [exact Hlen|]. split; [intros k ch Ek; apply (kids_nth _ _ _ _ _ _ k ch Ek)|].
  split; [exact Hu|]. split; [reflexivity|]. split; [reflexivity|]. split; [reflexivity|]. split; [|reflexivity].
  rewrite <- Hlen, <- pubs_released. exact (eq_sym (app_assoc _ _ _)).
Qed.
Print Assumptions C27_each_child.

(** ** Retries *)
Lemma error_run_unevaluable O w t u j r err : w_faults w = [] -> find_task (t_id t) w = Some u -> find_job (t_job t) w = Some j ->
  live (j_state j) -> t_retry t = Some r -> r_attempts r < r_limit r ->
  eval_task (o_tmpl O (j_context j) None) (retry_attempt t (w_fresh w) (w_clock w) r) = inr err ->
  run (error_handler O t) w =
    (w <| w_tasks := put_task (failed_row (w_clock w) t u) (w_tasks w) |> <| w_fresh := N.succ (w_fresh w) |>,
     Err err (Some (t <| t_failed := Some (w_clock w) |>))).
Proof.
  intros Hf Hu Hj Hl Hr Ha Hev.
  unfold error_handler. rewrite run_bind, run_get_job, Hj, run_bind, run_now, run_with_msg, run_bind by exact Hf.
  set (t1 := t <| t_failed := Some (w_clock w) |>).
  set (w1 := w <| w_tasks := put_task (failed_row (w_clock w) t u) (w_tasks w) |>).
  rewrite (run_update_task (t_id t1) _ w u (failed_row (w_clock w) t u) tt Hf Hu eq_refl). fold w1.
  replace (job_live (j_state j) && retry_left t1)%bool with true.
  2:{ symmetry. apply andb_true_iff. split; [now apply live_job_live|]. apply may_retry_left. exists r. auto. }
  rewrite run_bind, run_now, run_bind, run_new_id.
  change (w_fresh w1) with (w_fresh w). change (w_clock w1) with (w_clock w).
  assert (Er : retry_task t1 (w_fresh w) (w_clock w) = retry_attempt t (w_fresh w) (w_clock w) r).
  { unfold retry_task, retry_attempt, t1. destruct t; cbn in Hr; subst; reflexivity. }
  rewrite Er. unfold evaluate_task. rewrite Hev. reflexivity.
Qed.
(** C14/C27: the property is false for retries.  A retry whose expressions cannot be evaluated (they are evaluated again, although
    the failed attempt was already evaluated) is not created, and the job does not fail either: the task is FAILED, the job stays
    as it was and nothing is published that could end it. *)
Theorem C27_retry_hangs_refuted : forall O c fuel t u j r err,
  reachable O c -> w_faults (cw c) = [] -> In (MTask QUEUE_ERROR t) (w_hist (cw c)) ->
  find_task (t_id t) (cw c) = Some u -> find_job (t_job t) (cw c) = Some j ->
  live (j_state j) -> t_retry t = Some r -> r_attempts r < r_limit r ->
  eval_task (o_tmpl O (j_context j) None) (retry_attempt t (w_fresh (cw c)) (w_clock (cw c)) r) = inr err ->
  exists w' m, run (deliver O fuel (MTask QUEUE_ERROR t)) (cw c) = (w', Err err m) /\
    w_tasks w' = put_task (failed_row (w_clock (cw c)) t u) (w_tasks (cw c)) /\ same_jobs (cw c) w' /\ published (cw c) w' [].
Proof.
  intros O c fuel t u j r err HR Hf Hin Hu Hj Hl Hr Ha Hev. set (w := cw c) in *.
  rewrite deliver_error. unfold task_wrapper. rewrite run_catch, (error_run_unevaluable O w t u j r err Hf Hu Hj Hl Hr Ha Hev).
  rewrite run_bind, run_now.
  set (u1 := failed_row (w_clock w) t u). set (w1 := _ <| w_fresh := N.succ (w_fresh w) |>). change (w_clock w1) with (w_clock w).
  match goal with |- context [error_handler O ?x] => set (t2 := x) end.
  assert (Hui : t_id u1 = t_id u) by apply failed_row_id.
  assert (Hu1 : find_task (t_id t2) w1 = Some u1).
  { pose proof (find_task_id _ _ _ Hu) as E. change (t_id t2) with (t_id t). rewrite <- E.
    refine (proj1 (put_task_effect w w1 u u1 _ Hui eq_refl)). rewrite E. exact Hu. }
  assert (Hfix : failed_row (w_clock w1) t2 u1 = u1).
  { unfold failed_row at 1. replace (active (t_state u1)) with false; [reflexivity|].
    unfold u1, failed_row. destruct (active (t_state u)) eqn:E; [reflexivity|symmetry; exact E]. }
  assert (Hev2 : eval_task (o_tmpl O (j_context j) None) (retry_attempt t2 (w_fresh w1) (w_clock w1) r) = inr err).
  { assert (Eq : retry_attempt t2 (w_fresh w1) (w_clock w1) r =
      identity (w_fresh w1) (t_job t) (t_parent t) TPending (t_position t) (Some (w_clock w)) (retry_attempt t (w_fresh w) (w_clock w) r)).
    { unfold t2. destruct t; reflexivity. }
    rewrite Eq, eval_identity, Hev. reflexivity. }
  rewrite (error_run_unevaluable O w1 t2 u1 j r err Hf Hu1 Hj Hl Hr Ha Hev2).
  do 2 eexists. split; [reflexivity|]. split; [|split; [reflexivity|symmetry; apply app_nil_r]].
  rewrite Hfix. apply put_task_put. reflexivity.
Qed.
Print Assumptions C27_retry_hangs_refuted.

(** ** The hypotheses are met *)
(** templates: "bad" and, for the second element, "second" cannot be evaluated; the value of "text" is the text "bad" *)
Definition O2 : oracle := mkOracle unit
  (fun _ v s => if String.eqb s "bad" then inr "no such variable"
                else if String.eqb s "second" then match v with Some (_, 1, _) => inr "not for me" | _ => inl "fine" end
                else if String.eqb s "text" then inl "bad" else inl s)
  (fun _ _ => inl (Some [tt; tt; tt])) (fun _ => Some 5).
Definition with_image (s : string) : task := simple "b" <| t_image := s |>.
Definition each_of (d : task) : task := blank_task <| t_name := "each" |> <| t_each := Some (mkEach "" "xs" d 0 0 0 0) |>.
Definition second_pending (t : task) : list cmd :=
  [CApi (OSubmit (demo_job [simple "a"; t])); CRun 0 100; CDeliver 0; CRun 1 100; CComplete 1 "r"; CDeliver 2; CRun 2 100].

Example C27_parallel_nonvacuous : exists c t p j before b others err,
  reachable O2 c /\ w_faults (cw c) = [] /\ In (MTask QUEUE_PENDING t) (w_hist (cw c)) /\
  ~ false_padded (t_if t) /\ t_parallel t = Some p /\ find_job (t_job t) (cw c) = Some j /\
  p_tasks p = before ++ b :: others /\ length before = 1%nat /\ length others = 1%nat /\
  (forall x, In x before -> exists d, eval_task (o_tmpl O2 (j_context j) None) x = inl d) /\
  eval_task (o_tmpl O2 (j_context j) None) b = inr err.
Proof.
  exists (sim_c O2 start (second_pending (parallel_task [simple "x"; with_image "bad"; simple "y"]))).
  do 3 eexists. exists [simple "x"], (with_image "bad"), [simple "y"]. eexists.
  split; [apply sim_c_reachable; [cmds|reflexivity]|].
  split; [reflexivity|]. split; [vm_compute; right; right; right; left; reflexivity|].
  split; [intros H; apply trim_false in H; vm_compute in H; discriminate|]. do 2 (split; [vm_compute; reflexivity|]).
  split; [reflexivity|]. split; [reflexivity|]. split; [reflexivity|].
  split; [|vm_compute; reflexivity]. intros x [<-|[]]; eexists; vm_compute; reflexivity.
Qed.
Example C27_each_nonvacuous : exists c t e j before x others ds err,
  reachable O2 c /\ w_faults (cw c) = [] /\ In (MTask QUEUE_PENDING t) (w_hist (cw c)) /\
  ~ false_padded (t_if t) /\ t_parallel t = None /\ t_each t = Some e /\ find_job (t_job t) (cw c) = Some j /\
  o_list O2 (j_context j) (e_list e) = inl (Some (before ++ x :: others)) /\ length before = 1%nat /\ length others = 1%nat /\
  instances O2 (j_context j) (first_set [e_var e; "item"]) 0 (e_task e) before ds /\
  eval_task (o_tmpl O2 (j_context j) (Some (first_set [e_var e; "item"], Z.of_nat (length before), x)))
            (clone_task (fold_left write_cmds ds (e_task e))) = inr err.
Proof.
  exists (sim_c O2 start (second_pending (each_of (with_image "second")))).
  do 3 eexists. exists [tt], tt, [tt]. do 2 eexists.
  split; [apply sim_c_reachable; [cmds|reflexivity]|].
  split; [reflexivity|]. split; [vm_compute; right; right; right; left; reflexivity|].
  split; [intros H; apply trim_false in H; vm_compute in H; discriminate|]. do 3 (split; [vm_compute; reflexivity|]).
  split; [reflexivity|]. split; [reflexivity|]. split; [reflexivity|].
  split; [econstructor; [vm_compute; reflexivity|constructor]|]. vm_compute. reflexivity.
Qed.
(** a task whose evaluated image is the text "bad": its retry cannot be evaluated, and the job stays RUNNING *)
Example C27_retry_nonvacuous : exists c t u j r err, reachable O2 c /\ w_faults (cw c) = [] /\ In (MTask QUEUE_ERROR t) (w_hist (cw c)) /\
  find_task (t_id t) (cw c) = Some u /\ find_job (t_job t) (cw c) = Some j /\ live (j_state j) /\ t_retry t = Some r /\ r_attempts r < r_limit r /\
  eval_task (o_tmpl O2 (j_context j) None) (retry_attempt t (w_fresh (cw c)) (w_clock (cw c)) r) = inr err.
Proof.
  exists (sim_c O2 start (running (demo_job [with_image "text" <| t_retry := Some (mkRetry 2 0) |>]) ++ [CFail 1 "boom"])). do 5 eexists.
  split; [apply sim_c_reachable; [cmds|reflexivity]|]. split; [reflexivity|]. split; [vm_compute; do 4 right; left; reflexivity|].
  split; [vm_compute; reflexivity|]. split; [vm_compute; reflexivity|]. split; [now right|]. split; [vm_compute; reflexivity|]. split; [reflexivity|]. vm_compute. reflexivity.
Qed.
