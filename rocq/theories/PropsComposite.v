(** Property theorems about parallel tasks and sub-jobs when they are scheduled: fan-out of parallel tasks (C09), C22, C23.
    The handler runs alone, without faults, in any reachable state. *)
From Verif Require Import SeqTools InvSched InvMsgs Sim PropsSched PropsFan PropsState.
Open Scope string_scope.
Open Scope list_scope.
Open Scope Z_scope.

(** ** Parallel *)
(** the child made of the definition [p], which got the identifier [i] *)
Definition parallel_child (O : oracle) (t : task) (j : job) (clk : time) (p : task) (i : id) (c : task) : Prop :=
  exists d, eval_task (o_tmpl O (j_context j) None) p = inl d /\
    c = identity i (t_job t) (t_id t) TPending (t_position t) (Some clk) d.

Section Parallel.
Variables (O : oracle) (t : task) (j : job) (clk : time).
Inductive pkids : N -> list task -> list task -> Prop :=
| pkids_nil i : pkids i [] []
| pkids_cons i p l c cs : parallel_child O t j clk p i c -> pkids (N.succ i) l cs -> pkids i (p :: l) (c :: cs).

Lemma parallel_run l : j_id j = t_job t -> forall w, w_faults w = [] -> ids_below w -> (exists j', find_job (t_job t) w = Some j') ->
  (forall p, In p l -> exists d, eval_task (o_tmpl O (j_context j) None) p = inl d) ->
  exists cs, pkids (w_fresh w) l cs /\ run (parallel_children O t j clk l) w = (spawned w cs cs, Ok tt).
Proof.
  intros Hj. induction l as [|x l IH]; intros w Hf Hb Hex Hev.
  - exists []. split; [constructor|]. cbn [parallel_children]. now rewrite spawned_nil.
  - destruct (Hev x (or_introl eq_refl)) as (d & Hd).
    cbn [parallel_children]. rewrite run_bind, run_new_id. rewrite Hj.
    set (w1 := w <| w_fresh := N.succ (w_fresh w) |>).
    match goal with |- context [evaluate_task O ?et _] => change et with (identity (w_fresh w) (t_job t) (t_id t) TPending (t_position t) (Some clk) x) end.
    unfold evaluate_task. rewrite eval_identity, Hd. set (c := identity _ _ _ _ _ _ d). cbn iota.
    rewrite run_bind. destruct Hex as (j' & Ej').
    erewrite run_create_task; [|exact Hf| |exact Ej'].
    2:{ unfold w1. change (find_task (w_fresh w) w = None). now apply fresh_not_found. }
    set (w2 := w1 <| w_tasks := w_tasks w1 ++ [db_task c] |>).
    assert (Hb2 : ids_below w2) by (apply (ids_below_step w c); [exact Hb|reflexivity]).
    unfold publish_task. rewrite run_bind, run_publish by exact Hf.
    destruct (IH (w2 <| w_hist := w_hist w2 ++ [MTask QUEUE_PENDING c] |>)) as (cs & Hk & Hr); [exact Hf|exact Hb2|exists j'; exact Ej'|auto with datatypes|].
    exists (c :: cs). split; [constructor; [exists d; auto|exact Hk]|]. rewrite Hr. f_equal.
    etransitivity; [|apply (spawned_cons w c cs cs true)]. reflexivity.
Qed.
Lemma pkids_length i l cs : pkids i l cs -> length cs = length l.
Proof. induction 1; cbn; auto. Qed.
Lemma pkids_nth i l cs : pkids i l cs -> forall n c, nth_error cs n = Some c ->
  exists p, nth_error l n = Some p /\ parallel_child O t j clk p (i + N.of_nat n)%N c.
Proof.
  induction 1 as [|i x l c cs Hc H IH]; intros [|n] c' E; cbn in E; try discriminate.
  - injection E as <-. exists x. split; [reflexivity|]. rewrite N.add_0_r. exact Hc.
  - destruct (IH n c' E) as (y & Ey & Hy). exists y. split; [exact Ey|].
    replace (i + N.of_nat (S n))%N with (N.succ i + N.of_nat n)%N by lia. exact Hy.
Qed.
End Parallel.

Theorem C09_parallel_fans_out : forall O c fuel t p j,
  reachable O c -> w_faults (cw c) = [] -> In (MTask QUEUE_PENDING t) (w_hist (cw c)) ->
  ~ false_padded (t_if t) -> t_parallel t = Some p -> find_job (t_job t) (cw c) = Some j ->
  (forall x, In x (p_tasks p) -> exists d, eval_task (o_tmpl O (j_context j) None) x = inl d) ->
  exists w' cs u,
    run (deliver O fuel (MTask QUEUE_PENDING t)) (cw c) = (w', Ok tt) /\
    (* one child per task of the parallel task, in order *)
    length cs = length (p_tasks p) /\
    (forall k ch, nth_error cs k = Some ch -> exists x, nth_error (p_tasks p) k = Some x /\
       parallel_child O t j (w_clock (cw c)) x (w_fresh (cw c) + N.of_nat k)%N ch) /\
    (* stored, after the parent became RUNNING *)
    find_task (t_id t) (cw c) = Some u /\
    added (cw c) (put_task (u <| t_state := TRunning |> <| t_scheduled := Some (w_clock (cw c)) |> <| t_started := Some (w_clock (cw c)) |>)
                           (w_tasks (cw c))) cs w' /\
    (* and all published *)
    published (cw c) w' (map (MTask QUEUE_PENDING) cs) /\ same_jobs (cw c) w'.
Proof.
  intros O c fuel t p j HR Hf Hin Hif Hp Hj Hev.
  pose proof (reachable_inv _ _ HR) as HI. pose proof (inv_hist _ HI _ Hin) as (Hok & u & Hu & Hab).
  set (w := cw c) in *. pose proof (find_job_id _ _ _ Hj) as Hji.
  set (u' := u <| t_state := TRunning |> <| t_scheduled := Some (w_clock w) |> <| t_started := Some (w_clock w) |>).
  set (w1 := w <| w_tasks := put_task u' (w_tasks w) |>).
  assert (Hb1 : ids_below w1).
  { intros x Hx. change (w_fresh w1) with (w_fresh w). apply (in_map t_id) in Hx. cbn in Hx. rewrite map_id_put_task in Hx.
    apply in_map_iff in Hx as (y & <- & Hy). now apply Inv_ids_below. }
  destruct (parallel_run O t j (w_clock w) (p_tasks p) Hji w1 Hf Hb1 (ex_intro _ j Hj) Hev) as (cs & Hk & Hr).
  exists (spawned w1 cs cs), cs, u. split.
  { rewrite deliver_pending. unfold task_wrapper. rewrite run_catch. unfold pending_handler.
    destruct (String.eqb (trim_space (t_if t)) "false") eqn:Ef; [apply String.eqb_eq in Ef; apply trim_false in Ef; contradiction|].
    unfold schedule_task. rewrite Hp. unfold schedule_parallel. rewrite run_bind, run_now, run_bind.
    erewrite run_update_task; [|exact Hf|exact Hu|reflexivity]. fold u'. fold w1.
    rewrite run_bind, run_get_job by exact Hf. change (find_job (t_job t) w1) with (find_job (t_job t) w). rewrite Hj, Hr. reflexivity. }
  split; [exact (pkids_length _ _ _ _ _ _ _ Hk)|]. split; [intros k ch Ek; exact (pkids_nth _ _ _ _ _ _ _ Hk k ch Ek)|].
  split; [exact Hu|]. split; [reflexivity|]. split; reflexivity.
Qed.
Print Assumptions C09_parallel_fans_out.

Definition parallel_task (l : list task) : task := blank_task <| t_name := "par" |> <| t_parallel := Some (mkParallel l 0) |>.
Example C09_fan_out_nonvacuous : exists c t p j, reachable O0 c /\ w_faults (cw c) = [] /\ In (MTask QUEUE_PENDING t) (w_hist (cw c)) /\
  ~ false_padded (t_if t) /\ t_parallel t = Some p /\ length (p_tasks p) = 2%nat /\ find_job (t_job t) (cw c) = Some j /\
  (forall x, In x (p_tasks p) -> exists d, eval_task (o_tmpl O0 (j_context j) None) x = inl d).
Proof.
  exists (sim_c O0 start [CApi (OSubmit (demo_job [simple "a"; parallel_task [simple "x"; simple "y"]])); CRun 0 100; CDeliver 0; CRun 1 100; CComplete 1 "r"; CDeliver 2; CRun 2 100]).
  do 3 eexists. split; [apply sim_c_reachable; [cmds|reflexivity]|].
  split; [reflexivity|]. split; [vm_compute; right; right; right; left; reflexivity|].
  split; [intros H; apply trim_false in H; vm_compute in H; discriminate|]. do 3 (split; [vm_compute; reflexivity|]).
  intros x [<-|[<-|[]]]; eexists; vm_compute; reflexivity.
Qed.

(** ** Sub-jobs *)
(** [sj] is the job asked for by the sub-job declaration [s] of a task [t] of job [pj] *)
Definition job_of_declaration (pj : job) (s : subjobT task) (parent i : id) (clk : time) (sj : job) : Prop :=
  j_id sj = i /\ j_parent sj = parent /\ j_name sj = s_name s /\ j_description sj = s_description s /\
  j_tasks sj = s_tasks s /\ j_taskcount sj = Z.of_nat (length (s_tasks s)) /\ j_inputs sj = s_inputs s /\ j_secrets sj = s_secrets s /\
  c_inputs (j_context sj) = s_inputs s /\ c_tasks (j_context sj) = [] /\
  j_output sj = s_output s /\ j_webhooks sj = s_webhooks s /\ j_autodelete sj = s_autodelete s /\
  j_permissions sj = j_permissions pj /\ j_createdby sj = j_createdby pj /\
  job_new sj /\ j_created sj = clk /\ j_started sj = None /\ j_failed sj = None.

(** the row of the scheduling task: RUNNING, remembering the sub-job *)
Definition subjob_running (clk : time) (i : id) (u u' : task) : Prop :=
  exists s, t_subjob u = Some s /\
    u' = u <| t_state := TRunning |> <| t_scheduled := Some clk |> <| t_started := Some clk |> <| t_subjob := Some (s <| s_id := i |>) |>.

Lemma fresh_no_job w : Inv w -> find_job (w_fresh w) w = None.
Proof.
  intros H. destruct (find_job (w_fresh w) w) as [x|] eqn:E; [|reflexivity].
  pose proof (find_job_id _ _ _ E). apply find_job_in in E. apply (inv_job_fresh _ H) in E. lia.
Qed.

Theorem C22_subjob_is_created : forall O c fuel t s j,
  reachable O c -> w_faults (cw c) = [] -> In (MTask QUEUE_PENDING t) (w_hist (cw c)) ->
  ~ false_padded (t_if t) -> t_parallel t = None -> t_each t = None -> t_subjob t = Some s -> s_detached s = false ->
  find_job (t_job t) (cw c) = Some j ->
  exists w' sj u u',
    run (deliver O fuel (MTask QUEUE_PENDING t)) (cw c) = (w', Ok tt) /\
    job_of_declaration j s (t_id t) (w_fresh (cw c)) (w_clock (cw c)) sj /\ c_secrets (j_context sj) = s_secrets s /\
    find_job (j_id sj) (cw c) = None /\ w_jobs w' = w_jobs (cw c) ++ [sj] /\
    find_task (t_id t) (cw c) = Some u /\ subjob_running (w_clock (cw c)) (j_id sj) u u' /\ w_tasks w' = put_task u' (w_tasks (cw c)) /\
    published (cw c) w' [MJob sj].
Proof.
  intros O c fuel t s j HR Hf Hin Hif Hp He Hs Hd Hj.
  pose proof (reachable_inv _ _ HR) as HI. pose proof (inv_hist _ HI _ Hin) as (Hok & u & Hu & Hab). set (w := cw c) in *.
  assert (Hsu : exists su, t_subjob u = Some su).
  { destruct Hab as (_ & _ & _ & _ & _ & _ & H). rewrite Hs in H. destruct (t_subjob u); [eauto|discriminate]. }
  destruct Hsu as (su & Hsu).
  set (sj := make_subjob j t s (w_clock w) (w_fresh w) true).
  set (u' := u <| t_state := TRunning |> <| t_scheduled := Some (w_clock w) |> <| t_started := Some (w_clock w) |> <| t_subjob := Some (su <| s_id := w_fresh w |>) |>).
  eexists. exists sj, u, u'. split.
  { rewrite deliver_pending. unfold task_wrapper. rewrite run_catch. unfold pending_handler.
    destruct (String.eqb (trim_space (t_if t)) "false") eqn:Ef; [apply String.eqb_eq in Ef; apply trim_false in Ef; contradiction|].
    unfold schedule_task. rewrite Hp, He, Hs, Hd. unfold schedule_attached.
    rewrite run_bind, run_get_job, Hj, run_bind, run_now, run_bind, run_new_id by exact Hf.
    set (w1 := w <| w_fresh := N.succ (w_fresh w) |>). fold sj.
    rewrite run_bind, (run_update_task (t_id t) _ w1 u u' tt Hf Hu); [|unfold mark_subjob_running; rewrite Hsu; reflexivity].
    rewrite run_bind, run_create_job; [|exact Hf|exact (fresh_no_job _ HI)].
    unfold publish_job. rewrite run_publish by exact Hf. reflexivity. }
  split; [repeat split|]. split; [reflexivity|]. split; [exact (fresh_no_job _ HI)|]. split; [reflexivity|]. split; [exact Hu|].
  split; [exists su; split; [exact Hsu|reflexivity]|]. split; reflexivity.
Qed.
Print Assumptions C22_subjob_is_created.

Theorem C23_detached_does_not_block : forall O c fuel t s j,
  reachable O c -> w_faults (cw c) = [] -> In (MTask QUEUE_PENDING t) (w_hist (cw c)) ->
  ~ false_padded (t_if t) -> t_parallel t = None -> t_each t = None -> t_subjob t = Some s -> s_detached s = true ->
  find_job (t_job t) (cw c) = Some j ->
  exists w' sj u u',
    run (deliver O fuel (MTask QUEUE_PENDING t)) (cw c) = (w', Ok tt) /\
    job_of_declaration j s noid (w_fresh (cw c)) (w_clock (cw c)) sj /\
    find_job (j_id sj) (cw c) = None /\ w_jobs w' = w_jobs (cw c) ++ [sj] /\
    find_task (t_id t) (cw c) = Some u /\ subjob_running (w_clock (cw c)) (j_id sj) u u' /\ w_tasks w' = put_task u' (w_tasks (cw c)) /\
    published (cw c) w' [MJob sj; MTask QUEUE_COMPLETED (t <| t_completed := Some (w_clock (cw c)) |> <| t_state := TCompleted |>)].
Proof.
  intros O c fuel t s j HR Hf Hin Hif Hp He Hs Hd Hj.
  pose proof (reachable_inv _ _ HR) as HI. pose proof (inv_hist _ HI _ Hin) as (Hok & u & Hu & Hab). set (w := cw c) in *.
  assert (Hsu : exists su, t_subjob u = Some su).
  { destruct Hab as (_ & _ & _ & _ & _ & _ & H). rewrite Hs in H. destruct (t_subjob u); [eauto|discriminate]. }
  destruct Hsu as (su & Hsu).
  set (sj := make_subjob j t s (w_clock w) (w_fresh w) false).
  set (u' := u <| t_state := TRunning |> <| t_scheduled := Some (w_clock w) |> <| t_started := Some (w_clock w) |> <| t_subjob := Some (su <| s_id := w_fresh w |>) |>).
  eexists. exists sj, u, u'. split.
  { rewrite deliver_pending. unfold task_wrapper. rewrite run_catch. unfold pending_handler.
    destruct (String.eqb (trim_space (t_if t)) "false") eqn:Ef; [apply String.eqb_eq in Ef; apply trim_false in Ef; contradiction|].
    unfold schedule_task. rewrite Hp, He, Hs, Hd. unfold schedule_detached.
    rewrite run_bind, run_get_job, Hj, run_bind, run_now, run_bind, run_new_id by exact Hf.
    set (w1 := w <| w_fresh := N.succ (w_fresh w) |>). fold sj.
    rewrite run_bind, run_create_job; [|exact Hf|exact (fresh_no_job _ HI)].
    unfold publish_job. rewrite run_bind, run_publish by exact Hf.
    rewrite run_bind. erewrite run_update_task; [|exact Hf|exact Hu|unfold mark_subjob_running; rewrite Hsu; reflexivity].
    rewrite run_with_msg. unfold publish_task. rewrite run_publish by exact Hf. reflexivity. }
  split; [repeat split|]. split; [exact (fresh_no_job _ HI)|]. split; [reflexivity|]. split; [exact Hu|].
  split; [exists su; split; [exact Hsu|reflexivity]|]. split; [reflexivity|]. unfold published. cbn. now rewrite <- app_assoc.
Qed.
Print Assumptions C23_detached_does_not_block.

(** Where the code departs from the property: the secrets declared for a detached sub-job are not in its context, where
    templates look them up. *)
Definition secretive : task := blank_task <| t_name := "sub" |> <| t_subjob := Some (mkSubJob noid "s" "" [simple "x"] [] [("k", "v")] None "" true []) |>.
Theorem C23_detached_secrets_refuted : exists O c fuel t s w',
  reachable O c /\ In (MTask QUEUE_PENDING t) (w_hist (cw c)) /\ t_subjob t = Some s /\ s_detached s = true /\ s_secrets s = [("k", "v")] /\
  run (deliver O fuel (MTask QUEUE_PENDING t)) (cw c) = (w', Ok tt) /\
  exists sj, In (MJob sj) (w_hist w') /\ j_secrets sj = [("k", "v")] /\ c_secrets (j_context sj) = [].
Proof.
  exists O0, (sim_c O0 start [CApi (OSubmit (demo_job [simple "a"; secretive])); CRun 0 100; CDeliver 0; CRun 1 100; CComplete 1 "r"; CDeliver 2; CRun 2 100]), 10%nat.
  do 3 eexists. split; [apply sim_c_reachable; [cmds|reflexivity]|]. split; [vm_compute; right; right; right; left; reflexivity|].
  split; [vm_compute; reflexivity|]. split; [reflexivity|]. split; [reflexivity|]. split; [vm_compute; reflexivity|].
  eexists. split; [right; right; right; right; left; reflexivity|]. split; reflexivity.
Qed.
Print Assumptions C23_detached_secrets_refuted.

Definition attached (d : bool) : task := blank_task <| t_name := "sub" |> <| t_subjob := Some (mkSubJob noid "s" "" [simple "x"] [("i", "1")] [("k", "v")] None "out" d []) |>.
Example C22_nonvacuous : exists c t s j, reachable O0 c /\ w_faults (cw c) = [] /\ In (MTask QUEUE_PENDING t) (w_hist (cw c)) /\
  ~ false_padded (t_if t) /\ t_parallel t = None /\ t_each t = None /\ t_subjob t = Some s /\ s_detached s = false /\ find_job (t_job t) (cw c) = Some j.
Proof.
  exists (sim_c O0 start [CApi (OSubmit (demo_job [simple "a"; attached false])); CRun 0 100; CDeliver 0; CRun 1 100; CComplete 1 "r"; CDeliver 2; CRun 2 100]).
  do 3 eexists. split; [apply sim_c_reachable; [cmds|reflexivity]|].
  split; [vm_compute; reflexivity|]. split; [vm_compute; right; right; right; left; reflexivity|].
  split; [intros H; apply trim_false in H; vm_compute in H; discriminate|]. do 4 (split; [vm_compute; reflexivity|]). vm_compute; reflexivity.
Qed.

Example C23_nonvacuous : exists c t s j, reachable O0 c /\ w_faults (cw c) = [] /\ In (MTask QUEUE_PENDING t) (w_hist (cw c)) /\
  ~ false_padded (t_if t) /\ t_parallel t = None /\ t_each t = None /\ t_subjob t = Some s /\ s_detached s = true /\ find_job (t_job t) (cw c) = Some j.
Proof.
  exists (sim_c O0 start [CApi (OSubmit (demo_job [simple "a"; attached true])); CRun 0 100; CDeliver 0; CRun 1 100; CComplete 1 "r"; CDeliver 2; CRun 2 100]).
  do 3 eexists. split; [apply sim_c_reachable; [cmds|reflexivity]|].
  split; [vm_compute; reflexivity|]. split; [vm_compute; right; right; right; left; reflexivity|].
  split; [intros H; apply trim_false in H; vm_compute in H; discriminate|]. do 4 (split; [vm_compute; reflexivity|]). vm_compute; reflexivity.
Qed.

(** ** A list that cannot be evaluated fails the each task *)
Theorem C10_bad_list_fails_task : forall O c fuel t e j,
  reachable O c -> w_faults (cw c) = [] -> In (MTask QUEUE_PENDING t) (w_hist (cw c)) ->
  ~ false_padded (t_if t) -> t_parallel t = None -> t_each t = Some e -> find_job (t_job t) (cw c) = Some j ->
  (forall l, o_list O (j_context j) (e_list e) <> inl (Some l)) ->
  exists w' err, run (deliver O fuel (MTask QUEUE_PENDING t)) (cw c) = (w', Ok tt) /\
    w_tasks w' = w_tasks (cw c) /\ same_jobs (cw c) w' /\
    published (cw c) w' [MTask QUEUE_ERROR (t <| t_error := err |> <| t_state := TFailed |>)] /\
    (forall x, o_list O (j_context j) (e_list e) = inr x -> err = x).
Proof.
  intros O c fuel t e j HR Hf Hin Hif Hp He Hj Hl. set (w := cw c) in *.
  rewrite deliver_pending. unfold task_wrapper. rewrite run_catch. unfold pending_handler.
  destruct (String.eqb (trim_space (t_if t)) "false") eqn:Ef; [apply String.eqb_eq in Ef; apply trim_false in Ef; contradiction|].
  unfold schedule_task. rewrite Hp, He. unfold schedule_each. rewrite run_bind, run_now, run_bind, run_get_job, Hj by exact Hf.
  destruct (o_list O (j_context j) (e_list e)) as [[l|]|err] eqn:E; [exfalso; now apply (Hl l)| |];
    unfold publish_task; rewrite run_publish by exact Hf; do 2 eexists; (split; [reflexivity|]); repeat split; congruence.
Qed.
Print Assumptions C10_bad_list_fails_task.

(** ** C10 / C12: the empty list *)
(** An each task over an empty list becomes RUNNING, has no children and nothing is published: nothing will ever complete it. *)
Theorem C12_empty_list_hangs_refuted : forall O c fuel t e j,
  reachable O c -> w_faults (cw c) = [] -> In (MTask QUEUE_PENDING t) (w_hist (cw c)) ->
  ~ false_padded (t_if t) -> t_parallel t = None -> t_each t = Some e -> find_job (t_job t) (cw c) = Some j ->
  o_list O (j_context j) (e_list e) = inl (Some []) ->
  exists w' u', run (deliver O fuel (MTask QUEUE_PENDING t)) (cw c) = (w', Ok tt) /\
    find_task (t_id t) w' = Some u' /\ t_state u' = TRunning /\ published (cw c) w' [] /\
    map t_id (w_tasks w') = map t_id (w_tasks (cw c)).
Proof.
  intros O c fuel t e j HR Hf Hin Hif Hp He Hj Hl.
  destruct (C10_each_fans_out O c fuel t e j [] HR Hf Hin Hif Hp He Hj Hl) as (w' & cs & u & u' & eu & eu' & Hr & Hlen & _ & Hu & _ & Hu' & _ & Ha & Hpub & _).
  { intros [|k] x E; discriminate. }
  destruct cs; [|discriminate]. unfold added in Ha. cbn in Ha. rewrite app_nil_r in Ha.
  exists w', u'. pose proof (find_task_id _ _ _ Hu) as Hui. split; [exact Hr|]. split.
  { rewrite <- Hui. rewrite <- Hui in Hu. apply (proj1 (put_task_effect (cw c) w' u u' Hu ltac:(now subst u') Ha)). }
  split; [now subst u'|]. split; [|rewrite Ha; apply map_id_put_task].
  rewrite firstn_nil in Hpub. exact Hpub.
Qed.
Print Assumptions C12_empty_list_hangs_refuted.
