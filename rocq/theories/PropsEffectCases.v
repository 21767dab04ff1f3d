From Verif Require Import EffectCount SimWhere PropsState PropsFan PropsComposite.
Open Scope string_scope.
Open Scope list_scope.
Open Scope Z_scope.
From Verif Require Import PropsEffect.
(* ------------------------------------------------------------------ *)
(** * Non-vacuity and counterexamples *)

Ltac ran := (apply sim_c_exec; [cmds|vm_compute; reflexivity]).
Ltac ranr := (apply sim_c_reachable; [cmds|vm_compute; reflexivity]).

Lemma sim_c_where O (P : world -> world -> bool) (Q : world -> world -> Prop) c l : Forall cmd_ok l -> sim_ran O c l = true -> all_where O P l c = true ->
  (forall w w', P w w' = true -> Q w w') -> exec_where O Q c (sim_l O c l) (sim_c O c l).
Proof.
  unfold sim_c, sim_l, sim_ran. destruct (sim O l c) as [[c' ls]|] eqn:E; [|easy]. intros H _ Hw HQ.
  eapply exec_where_weaken; [exact HQ|]. eapply sim_where; eauto.
Qed.

(** a parallel task with two children, both completed *)
Definition par_job := demo_job [parallel_task [simple "x"; simple "y"]].
Definition par_start : list cmd :=
  [CApi (OSubmit par_job); CRun 0 100; CDeliver 0; CRun 1 100; CDeliver 1; CRun 2 100; CDeliver 2; CRun 3 100].
Definition par_run : list cmd := [CComplete 3 "r"; CDeliver 5; CRun 4 100; CComplete 4 "s"; CDeliver 6; CRun 5 100].
Lemma no_delivery p ls : forallb (fun l => match l with LDeliver (MTask q t) => negb (String.eqb q QUEUE_COMPLETED && N.eqb (t_id t) p) | _ => true end)%bool ls = true ->
  ~ completion_delivered p ls.
Proof.
  intros H (t & Hin & Ht). rewrite forallb_forall in H. specialize (H _ Hin). cbn [negb] in H. rewrite String.eqb_refl, Ht, N.eqb_refl in H. discriminate.
Qed.
Example C09_nonvacuous : exists c ls c' p t pp, reachable O0 c /\ exec O0 c ls c' /\ exec O0 start (sim_l O0 start (par_start ++ par_run)) c' /\
  ~ completion_delivered p (sim_l O0 start (par_start ++ par_run)) /\
  find_task p (cw c') = Some t /\ t_parallel t = Some pp /\ t_state t = TCompleted /\ p_completions pp = 2 /\
  (exists t0, find_task p (cw c) = Some t0 /\ t_state t0 = TRunning /\ count_of t0 = 0).
Proof.
  exists (sim_c O0 start par_start), (sim_l O0 (sim_c O0 start par_start) par_run), (sim_c O0 start (par_start ++ par_run)), 2%N. do 2 eexists.
  split; [ranr|]. split.
  { replace (sim_c O0 start (par_start ++ par_run)) with (sim_c O0 (sim_c O0 start par_start) par_run) by (vm_compute; reflexivity). ran. }
  split; [ran|]. split; [apply no_delivery; vm_compute; reflexivity|]. do 4 (split; [vm_compute; reflexivity|]).
  eexists. split; [vm_compute; reflexivity|]. split; reflexivity.
Qed.

(** Finding: the completion of a skipped child is accepted again and again. Delivered twice, it completes a parallel task
    (and the job) one of whose children has not run. *)
Definition skip_job := demo_job [parallel_task [(simple "x") <| t_if := "false" |>; simple "y"]].
Theorem C09_skipped_child_counts_twice_refuted : exists O c p t x y,
  reachable O c /\ find_task p (cw c) = Some t /\ width_of t = 2 /\ t_state t = TCompleted /\ count_of t = 2 /\
  find_task 3%N (cw c) = Some x /\ t_parent x = p /\ t_state x = TSkipped /\
  find_task 4%N (cw c) = Some y /\ t_parent y = p /\ t_state y = TPending /\
  exists j, find_job 1%N (cw c) = Some j /\ j_state j = JCompleted.
Proof.
  exists O0, (sim_c O0 start [CApi (OSubmit skip_job); CRun 0 100; CDeliver 0; CRun 1 100; CDeliver 1; CRun 2 100; CDeliver 3; CRun 3 100; CDeliver 3; CRun 4 100]), 2%N.
  do 3 eexists. split; [ranr|]. do 10 (split; [vm_compute; reflexivity|]). eexists. split; vm_compute; reflexivity.
Qed.
Print Assumptions C09_skipped_child_counts_twice_refuted.

(** an each task of three elements, one at a time, run to its end *)
Definition each_job := demo_job [each_task 1].
Definition each_start : list cmd := [CApi (OSubmit each_job); CRun 0 100; CDeliver 0; CRun 1 100; CDeliver 1; CRun 2 100].
Definition each_run : list cmd :=
  [CComplete 2 "r"; CDeliver 3; CRun 3 100; CDeliver 4; CRun 4 100; CComplete 5 "r"; CDeliver 6; CRun 5 100; CDeliver 7; CRun 6 100; CComplete 8 "r"; CDeliver 9; CRun 7 100].
Example C12_nonvacuous : exists ls c p t e, exec_where O0 sizes_kept start ls c /\ ~ completion_delivered p ls /\
  find_task p (cw c) = Some t /\ each_of t = Some e /\ t_state t = TCompleted /\ e_completions e = 3.
Proof.
  exists (sim_l O0 start (each_start ++ each_run)), (sim_c O0 start (each_start ++ each_run)), 2%N. do 2 eexists.
  split; [apply (sim_c_where O0 sizes_test); [cmds|vm_compute; reflexivity|vm_compute; reflexivity|apply sizes_test_sound]|].
  split; [apply no_delivery; vm_compute; reflexivity|]. repeat (split; [vm_compute; reflexivity|]). vm_compute; reflexivity.
Qed.
Definition no_pending_b (i ji : id) (ls : list label) : bool :=
  forallb (fun l => match l with
     | LOp (OMsg (MTask q t)) => negb (String.eqb q QUEUE_PENDING && N.eqb (t_id t) i)
     | LOp (OMsg (MJob j)) => negb (N.eqb (j_id j) ji && jstate_eqb (j_state j) JPending)
     | _ => true end)%bool ls.
Lemma no_pending i ji ls : no_pending_b i ji ls = true -> ~ pending_handled i ji ls.
Proof.
  intros H [(t & Hin & Ht)|(j & Hin & Hj & Hs)]; unfold no_pending_b in H; rewrite forallb_forall in H; specialize (H _ Hin); cbn -[QUEUE_PENDING String.eqb N.eqb] in H.
  - rewrite Ht, N.eqb_refl, String.eqb_refl in H. discriminate.
  - rewrite Hj, Hs, N.eqb_refl in H. discriminate.
Qed.
Example C11_nonvacuous : exists c ls c' p t e, reachable O0 c /\ exec_where O0 (fun w w' => ~ leaks w w') c ls c' /\
  ~ pending_handled p (t_job t) ls /\ find_task p (cw c) = Some t /\ each_of t = Some e /\ e_size e = 3 /\
  e_concurrency e = 1 /\ e_index e = e_concurrency e + e_completions e /\ e_completions e = 0 /\
  exists t' e', find_task p (cw c') = Some t' /\ each_of t' = Some e' /\ e_completions e' = 3.
Proof.
  exists (sim_c O0 start each_start), (sim_l O0 (sim_c O0 start each_start) each_run), (sim_c O0 (sim_c O0 start each_start) each_run), 2%N. do 2 eexists.
  split; [ranr|]. split; [apply (sim_c_where O0 leak_test); [cmds|vm_compute; reflexivity|vm_compute; reflexivity|apply leak_test_sound]|].
  assert (E : exists t, find_task 2%N (cw (sim_c O0 start each_start)) = Some t /\ t_job t = 1%N) by (eexists; split; vm_compute; reflexivity).
  split; [|do 6 (split; [vm_compute; reflexivity|])].
  { match goal with |- ~ pending_handled _ (t_job ?x) _ => idtac end. apply no_pending. vm_compute. reflexivity. }
  do 2 eexists. split; [vm_compute; reflexivity|]. split; vm_compute; reflexivity.
Qed.

(** Finding: when committing the completion of a child fails, the release of the next child is not undone. With a retry the failed child and the
    released one are in flight together, two at a time instead of one. *)
Definition retryable := (simple "body") <| t_retry := Some (mkRetry 2 0) |>.
Definition each_retry (k : Z) : task := blank_task <| t_name := "each" |> <| t_each := Some (mkEach "" "xs" retryable 0 0 k 0) |>.
Theorem C11_failed_commit_releases_refuted : exists O c p t e x y,
  reachable O c /\ find_task p (cw c) = Some t /\ each_of t = Some e /\ e_concurrency e = 1 /\ e_completions e = 0 /\
  find_task 4%N (cw c) = Some x /\ t_parent x = p /\ t_state x = TPending /\ In (MTask QUEUE_PENDING x) (w_hist (cw c)) /\
  find_task 6%N (cw c) = Some y /\ t_parent y = p /\ t_state y = TPending /\ exists y', In (MTask QUEUE_PENDING y') (w_hist (cw c)) /\ t_id y' = 6%N.
Proof.
  exists O0, (sim_c O0 start [CApi (OSubmit (demo_job [each_retry 1])); CRun 0 100; CDeliver 0; CRun 1 100; CDeliver 1; CRun 2 100; CComplete 2 "r"; CDeliver 3;
    COp 3; COp 3; CEnv 1000 [false; false; false; false; false; true]; CRun 3 100]), 2%N. do 4 eexists.
  split; [ranr|]. do 7 (split; [vm_compute; reflexivity|]). split; [vm_compute; do 4 right; left; reflexivity|].
  do 3 (split; [vm_compute; reflexivity|]). eexists. split; [vm_compute; do 5 right; left; reflexivity|reflexivity].
Qed.
Print Assumptions C11_failed_commit_releases_refuted.

(** three attempts of a task with two retries *)
Definition retry_run : list cmd :=
  [CApi (OSubmit (demo_job [retryable])); CRun 0 100; CDeliver 0; CRun 1 100; CFail 1 "e1"; CDeliver 2; CRun 2 100; CDeliver 3; CRun 3 100;
   CFail 4 "e2"; CDeliver 5; CRun 4 100; CDeliver 6; CRun 5 100; CFail 7 "e3"; CDeliver 8; CRun 6 100].
Lemma retry_log_exists O c ls c' : exec O c ls c' -> exists E, retry_log O c ls E c'.
Proof. intros H. induction H as [|c1 ls c2 l c3 H (E & IH) S]; eexists; econstructor; eauto. Qed.
Lemma retry_log_app O c1 l1 E c2 l2 c3 : retry_log O c1 l1 E c2 -> exec O c2 l2 c3 -> exists E', retry_log O c1 (l1 ++ l2) E' c3 /\ (forall a x, E a x -> E' a x).
Proof.
  intros H1 H2. induction H2 as [c|c2 l2 c3 l c4 H2 IH S]; [rewrite app_nil_r; eauto|]. destruct (IH H1) as (E' & HE & Hi).
  rewrite app_assoc. eexists. split; [econstructor; [exact HE|exact S]|]. intros a x Ha. left. auto.
Qed.
Lemma retry_log_made O c1 l1 E c2 l c3 l2 c4 a x : retry_log O c1 l1 E c2 -> step O c2 l c3 -> retry_made l (cw c2) (cw c3) a x -> exec O c3 l2 c4 ->
  exists E', retry_log O c1 ((l1 ++ [l]) ++ l2) E' c4 /\ (forall b y, E b y -> E' b y) /\ E' a x.
Proof.
  intros H1 S Hm H2. assert (HL : retry_log O c1 (l1 ++ [l]) (fun b y => E b y \/ retry_made l (cw c2) (cw c3) b y) c3) by (econstructor; eauto).
  destruct (retry_log_app _ _ _ _ _ _ _ HL H2) as (E' & H & Hi). exists E'. auto 10.
Qed.
Definition next (n : nat) (c : config) : config := match sim_op n c with Some (c', _) => c' | None => c end.
Definition made_test (n : nat) (a x : id) (c : config) : bool :=
  match sim_op n c with
  | Some (c', LOp o) =>
      match task_of o, find_task x (cw c), find_task x (cw c') with
      | Some b, None, Some t => (N.eqb b a && (0 <? attempts_of t))%bool
      | _, _, _ => false
      end
  | _ => false
  end.
Lemma made_test_sound n a x c : made_test n a x c = true -> exists l, step O0 c l (next n c) /\ retry_made l (cw c) (cw (next n c)) a x.
Proof.
  unfold made_test, next. destruct (sim_op n c) as [[c' l]|] eqn:E; [|easy]. pose proof (sim_op_step O0 _ _ _ _ E) as S.
  destruct l; try easy. destruct (task_of o) as [b|] eqn:Eo; [|easy]. destruct (find_task x (cw c)) eqn:E1; [easy|].
  destruct (find_task x (cw c')) as [t|] eqn:E2; [|easy]. intros H. apply andb_true_iff in H as [H1 H2]. apply N.eqb_eq in H1 as ->. apply Z.ltb_lt in H2.
  eexists. split; [exact S|]. exists o, t. auto.
Qed.
Definition at_retry1 : list cmd := firstn 6 retry_run ++ [COp 2; COp 2; COp 2; COp 2; COp 2].
Definition at_retry2 : list cmd := [CRun 2 100; CDeliver 3; CRun 3 100; CFail 4 "e2"; CDeliver 5; COp 4; COp 4; COp 4; COp 4; COp 4].
Definition chain1 : config := sim_c O0 start at_retry1.
Definition chain2 : config := sim_c O0 (next 2 chain1) at_retry2.
Example C13_chain_nonvacuous : exists ls E c, retry_log O0 start ls E c /\ retry_chain E 2%N 2 4%N /\
  exists t, find_task 4%N (cw c) = Some t /\ limit_of t = 2.
Proof.
  assert (E1 : exec O0 start (sim_l O0 start at_retry1) chain1) by ran.
  destruct (retry_log_exists _ _ _ _ E1) as (L1 & HL1).
  destruct (made_test_sound 2 2%N 3%N chain1) as (l2 & St2 & M2); [vm_compute; reflexivity|].
  assert (E3 : exec O0 (next 2 chain1) (sim_l O0 (next 2 chain1) at_retry2) chain2) by ran.
  destruct (retry_log_made _ _ _ _ _ _ _ _ _ _ _ HL1 St2 M2 E3) as (L2 & HL2 & _ & H23).
  destruct (made_test_sound 4 3%N 4%N chain2) as (l4 & St4 & M4); [vm_compute; reflexivity|].
  destruct (retry_log_made _ _ _ _ _ _ _ _ _ _ _ HL2 St4 M4 (exec_nil _ _)) as (L3 & HL3 & Hi & H34).
  do 3 eexists. split; [exact HL3|]. split; [|eexists; split; vm_compute; reflexivity].
  eapply rch_snoc; [eapply rch_snoc; [apply rch_nil|apply Hi; exact H23]|exact H34].
Qed.

(** a duplicate of the submission of a completed job leaves it running with a deletion time: it can be deleted while it runs *)
Definition ad_job := (demo_job [simple "a"]) <| j_autodelete := Some (mkAutoDelete "5s") |>.
Definition ad_run : list cmd := [CApi (OSubmit ad_job); CRun 0 100; CDeliver 0; CRun 1 100; CComplete 1 "r"; CDeliver 2; CRun 2 100].
Example C29_nonvacuous : exists ls c j, exec O0 start ls c /\ (submissions_delivered 1%N ls <= 1)%nat /\ find_job 1%N (cw c) = Some j /\
  j_state j = JCompleted /\ j_deleteat j = Some 1005.
Proof.
  exists (sim_l O0 start ad_run), (sim_c O0 start ad_run). eexists. split; [ran|]. split; [vm_compute; lia|].
  repeat (split; [vm_compute; reflexivity|]). vm_compute; reflexivity.
Qed.
Theorem C29_running_with_deletion_time_refuted : exists O c i j d, reachable O c /\ find_job i (cw c) = Some j /\ j_state j = JScheduled /\ j_deleteat j = Some d.
Proof.
  exists O0, (sim_c O0 start (ad_run ++ [CDeliver 0; CRun 3 100])), 1%N. do 2 eexists. split; [ranr|].
  repeat (split; [vm_compute; reflexivity|]). vm_compute; reflexivity.
Qed.
Print Assumptions C29_running_with_deletion_time_refuted.

(** ** C05: what a refused completion still does *)
Definition two_run : list cmd := [CApi (OSubmit two_tasks); CRun 0 100; CDeliver 0; CRun 1 100; CComplete 1 "r"; CDeliver 2; CRun 2 100].
Example C05_nonvacuous : exists c t, reachable O0 c /\ In (MTask QUEUE_COMPLETED t) (w_hist (cw c)) /\ ~ awaits_completion (t_id t) (cw c) /\
  (forall o p, In (o, p) (cthreads (mkConfig (cw c) [])) -> ~ completes o (t_id t)).
Proof.
  exists (sim_c O0 start two_run). eexists. split; [ranr|]. split; [vm_compute; right; right; left; reflexivity|]. split.
  - intros (u & Eu & Ha). vm_compute in Eu. injection Eu as <-. destruct Ha as [Ha|[Ha|Ha]]; discriminate.
  - intros o p [].
Qed.
(** Finding: a duplicate of a completion fails a live job. *)
Theorem C05_duplicate_fails_job_refuted : exists O c ls c' j j', reachable O c /\ exec O c ls c' /\
  find_job 1%N (cw c) = Some j /\ live (j_state j) /\ find_job 1%N (cw c') = Some j' /\ j_state j' = JFailed /\
  (forall l, In l ls -> exists t u, (l = LDeliver (MTask QUEUE_COMPLETED t) \/ l = LOp (OMsg (MTask QUEUE_COMPLETED t))) /\
     find_task (t_id t) (cw c) = Some u /\ t_state u = TCompleted).
Proof.
  exists O0, (sim_c O0 start two_run), (sim_l O0 (sim_c O0 start two_run) [CDeliver 2; CRun 3 100]), (sim_c O0 (sim_c O0 start two_run) [CDeliver 2; CRun 3 100]).
  do 2 eexists. split; [ranr|]. split; [ran|]. split; [vm_compute; reflexivity|]. split; [left; reflexivity|]. split; [vm_compute; reflexivity|]. split; [reflexivity|].
  intros l Hin. assert (Hall : Forall (fun l => exists t u, (l = LDeliver (MTask QUEUE_COMPLETED t) \/ l = LOp (OMsg (MTask QUEUE_COMPLETED t))) /\
     find_task (t_id t) (cw (sim_c O0 start two_run)) = Some u /\ t_state u = TCompleted) (sim_l O0 (sim_c O0 start two_run) [CDeliver 2; CRun 3 100])).
  { vm_compute. repeat (constructor; [do 2 eexists; split; [first [left; reflexivity|right; reflexivity]|split; reflexivity]|]). constructor. }
  rewrite Forall_forall in Hall. exact (Hall _ Hin).
Qed.
Print Assumptions C05_duplicate_fails_job_refuted.

(** Finding: a redelivered pending message goes straight to the worker's queue; the completion then finds the task PENDING, is refused, and
    the task is marked FAILED although it ran. *)
Definition queued := (simple "b") <| t_queue := "q1" |>.
Definition redelivered_run : list cmd := [CApi (OSubmit (demo_job [simple "a"; queued])); CRun 0 100; CDeliver 0; CRun 1 100; CComplete 1 "r"; CDeliver 2; CRun 2 100;
  CRedeliver 3; CDeliver 4; CRun 3 100; CComplete 5 "done"].
Theorem C05_waiting_task_fails_refuted : exists O c ls c' t t', reachable O c /\ exec O c ls c' /\
  find_task 3%N (cw c) = Some t /\ t_state t = TPending /\ (exists m, In (MTask QUEUE_COMPLETED m) (w_hist (cw c)) /\ t_id m = 3%N /\ t_result m = "done") /\
  find_task 3%N (cw c') = Some t' /\ t_state t' = TFailed.
Proof.
  exists O0, (sim_c O0 start redelivered_run), (sim_l O0 (sim_c O0 start redelivered_run) [CDeliver 6; CRun 4 100]), (sim_c O0 (sim_c O0 start redelivered_run) [CDeliver 6; CRun 4 100]).
  do 2 eexists. split; [ranr|]. split; [ran|]. do 2 (split; [vm_compute; reflexivity|]).
  split; [eexists; split; [vm_compute; do 6 right; left; reflexivity|split; reflexivity]|]. split; vm_compute; reflexivity.
Qed.
Print Assumptions C05_waiting_task_fails_refuted.
