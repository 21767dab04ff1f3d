(** Property theorems, C84: results are not invented. Over every execution of the interleaving machine (System.v).
    Vocabulary: SpecState.v, SpecComplete.v, SpecEffect.v. *)
From Verif Require Import EffectCount PropsState.
Open Scope string_scope.
Open Scope list_scope.
Open Scope Z_scope.

(** ** Vocabulary *)

(** [r] is a completion a worker sent after it had been handed the task, and before that the task was in a work queue *)
Definition worker_completion (h : list msg) (r : task) : Prop :=
  exists h1 h2 q s, h = h1 ++ MTask QUEUE_COMPLETED r :: h2 /\ In (MTask q s) h1 /\ is_task_queue q = true /\
    worker_report s r /\ t_state r = TCompleted.

Lemma worker_completion_grows h h' r : grows h h' -> worker_completion h r -> worker_completion h' r.
Proof.
  intros [ms ->] (h1 & h2 & q & s & -> & H). exists h1, (h2 ++ ms), q, s. split; [|exact H]. now rewrite <- app_assoc.
Qed.

(** ** Histories *)

Lemma step_hist O c l c' : reachable O c -> step O c l c' -> grows (w_hist (cw c)) (w_hist (cw c')).
Proof. intros HR S. destruct (reachable_both _ _ HR) as (H & _). destruct (lift_step _ _ _ _ H S) as (_ & H'). apply H'. Qed.
Lemma exec_hist O c ls c' : reachable O c -> exec O c ls c' -> grows (w_hist (cw c)) (w_hist (cw c')).
Proof. intros HR S. destruct (reachable_both _ _ HR) as (H & _). destruct (lift_exec _ _ _ _ H S) as (_ & H'). apply H'. Qed.
Lemma delivered_hist O c0 ls c m : initial c0 -> exec O c0 ls c -> In (LDeliver m) ls -> In m (w_hist (cw c)).
Proof.
  intros Hi E. induction E as [|c1 ls c2 l c3 E IH S]; [easy|]. rewrite in_app_iff.
  assert (HR : reachable O c2) by (exists c1, ls; auto). intros [H|[->|[]]].
  - eapply grows_in; [eapply step_hist; eauto|auto].
  - eapply grows_in; [eapply step_hist; eauto|]. inversion S; subst; cbn; auto.
Qed.
Lemma handled_hist O c0 ls c m c' : initial c0 -> exec O c0 ls c -> step O c (LOp (OMsg m)) c' -> In m (w_hist (cw c')).
Proof.
  intros Hi E S. eapply delivered_hist; [exact Hi|eapply exec_snoc; eauto|].
  eapply op_delivered_l; [exact Hi|eapply exec_snoc; eauto|]. apply in_or_app. right. now left.
Qed.
(** completion reports about tasks that run no sub-job come from workers *)
Lemma completion_is_workers O c r : reachable O c -> In (MTask QUEUE_COMPLETED r) (w_hist (cw c)) -> t_state r = TCompleted ->
  t_subjob r = None -> worker_completion (w_hist (cw c)) r.
Proof.
  intros HR Hin Hs Hn. destruct (reachable_both _ _ HR) as (_ & (_ & _ & Hw) & _). apply Hw in Hin as (_ & _ & H).
  destruct (H eq_refl Hs) as [H'|(h1 & h2 & Eh & Hm)]; [destruct H' as [H' _]; rewrite Hn in H'; discriminate|].
  inversion Hm; subst. exists h1, h2, q, t. auto 10.
Qed.

(** ** C84 *)

(** whenever a task becomes COMPLETED, the coordinator is handling a message about its completion; the stored state and
    result are those of the message, or the task is a parallel or each task *)
Theorem C84_completed_as_reported : forall O c l c' i t t', reachable O c -> step O c l c' ->
  find_task i (cw c) = Some t -> find_task i (cw c') = Some t' -> t_state t' = TCompleted -> t_state t <> TCompleted ->
  composite t = true \/
  exists m, l = LOp (OMsg (MTask QUEUE_COMPLETED m)) /\ In (MTask QUEUE_COMPLETED m) (w_hist (cw c')) /\
    t_id m = i /\ t_state m = TCompleted /\ t_result t' = t_result m.
Proof.
  intros O c l c' i t t' HR S E E' Hs Hn.
  destruct (completed_by_record _ _ _ _ _ _ _ HR S E E' Hs Hn) as (o & -> & _ & _ & [(m & u & -> & Hm & Eu & H1 & H2)|(p & Ep & Hc & _)]).
  - right. assert (u = t') by congruence. subst u. exists m. destruct HR as (c0 & ls & Hi & Ex). ands; auto; try congruence.
    eapply handled_hist; eauto.
  - left. congruence.
Qed.
Print Assumptions C84_completed_as_reported.

(** a COMPLETED task that is neither parallel nor each was reported complete, with the result it shows *)
Lemma completed_message O c i t : reachable O c -> find_task i (cw c) = Some t -> t_state t = TCompleted -> composite t = false ->
  exists m, In (MTask QUEUE_COMPLETED m) (w_hist (cw c)) /\ t_id m = i /\ t_state m = TCompleted /\ t_result m = t_result t.
Proof.
  intros (c0 & ls & Hi & E). revert t. induction E as [|c1 ls c2 l c3 E IH S]; intros t' E' Hs Hc.
  { destruct Hi as (clk & fs & ->). discriminate. }
  specialize (IH Hi). assert (HR : reachable O c2) by (exists c1, ls; auto).
  assert (HR' : reachable O c3) by (eapply reachable_step; eauto).
  pose proof (reachable_inv _ _ HR) as HI.
  destruct (find_task i (cw c2)) as [t|] eqn:Et; [|exfalso; exact (not_born_completed _ _ _ _ _ _ HR S Et E' Hs)].
  destruct (step_row _ _ _ _ _ _ HR S Et) as (t2 & E2 & Hd & _). assert (t2 = t') by congruence. subst t2.
  assert (Hct : composite t = false) by (now rewrite <- (composite_def _ _ Hd)).
  destruct (tstate_eqb (t_state t) TCompleted) eqn:Es.
  - assert (Hst : t_state t = TCompleted) by (destruct (t_state t); try discriminate; reflexivity).
    destruct (IH t eq_refl Hst Hct) as (r & Hw & Hr & Hrs & Hres). exists r. ands; [|exact Hr|exact Hrs|].
    { eapply grows_in; [exact (step_hist _ _ _ _ HR S)|exact Hw]. }
    rewrite Hres. symmetry.
    destruct (effect_cases _ _ _ _ HR S) as [(o & Hq & _)|[(o & x & -> & Hq & Hx & _)|(o & -> & Hq & Hl)]].
    + destruct Hq as [Hq _]. specialize (Hq i). rewrite Et, E' in Hq. apply Hq.
    + destruct (records_row _ _ _ _ _ HI Hx Et) as (t2 & Et2 & Hcs). assert (t2 = t') by congruence. subst t2.
      destruct Hcs as [[-> (Ha & _)]|[(_ & u & _ & _ & _ & _ & Hd2)|[(_ & Hs2 & _)|(_ & -> & _)]]].
      * rewrite Hst in Ha. destruct Ha as [Ha|[Ha|Ha]]; discriminate.
      * rewrite Hd2. reflexivity.
      * congruence.
      * reflexivity.
    + destruct (leaks_row _ _ _ _ Hl Et) as (t2 & Et2 & Ht2). assert (t2 = t') by congruence. subst t2.
      destruct Ht2 as [Ht2|(_ & Ht2)]; now rewrite Ht2.
  - assert (Hnc : t_state t <> TCompleted) by (intros H; rewrite H in Es; discriminate).
    destruct (C84_completed_as_reported _ _ _ _ _ _ _ HR S Et E' Hs Hnc) as [Hx|(m & _ & Hin & Hm & Hms & Hres)]; [congruence|].
    exists m. ands; auto.
Qed.

Theorem C84_results_come_from_workers : forall O c i t, reachable O c -> find_task i (cw c) = Some t ->
  t_state t = TCompleted -> composite t = false -> t_subjob t = None ->
  exists r, worker_completion (w_hist (cw c)) r /\ t_id r = i /\ t_result r = t_result t.
Proof.
  intros O c i t HR E Hs Hc Hj. destruct (completed_message _ _ _ _ HR E Hs Hc) as (m & Hin & Hm & Hms & Hres).
  exists m. ands; [|exact Hm|exact Hres]. apply (completion_is_workers _ _ _ HR Hin Hms).
  destruct (reachable_both _ _ HR) as (_ & (_ & Hk & _) & _). apply Hk in Hin. destruct Hin as (_ & u & Eu & (_&_&_&_&_&_&Hsub) & _).
  rewrite Hm in Eu. assert (u = t) by congruence. subst u. rewrite Hj in Hsub. destruct (t_subjob m); [discriminate|reflexivity].
Qed.
Print Assumptions C84_results_come_from_workers.

(** what templates see as [tasks.k] is what a completion of a task of that job with that variable reported, or the result of a parallel
    or each task *)
Theorem C84_context_entries_are_reported : forall O c i j k v, reachable O c -> find_job i (cw c) = Some j ->
  smap_get k (c_tasks (j_context j)) = Some v ->
  v <> "" /\
  ((exists m, In (MTask QUEUE_COMPLETED m) (w_hist (cw c)) /\ t_job m = i /\ t_var m = k /\ t_result m = v /\
     (t_state m = TSkipped \/ t_state m = TCompleted /\ (t_subjob m <> None \/ worker_completion (w_hist (cw c)) m))) \/
   (exists p, find_task (t_id p) (cw c) = Some p /\ t_job p = i /\ t_var p = k /\ composite p = true)).
Proof.
  intros O c i j k v (c0 & ls & Hi & E). revert j v. induction E as [|c1 ls c2 l c3 E IH S]; intros j' v E' Hk.
  { destruct Hi as (clk & fs & ->). discriminate. }
  specialize (IH Hi). assert (HR : reachable O c2) by (exists c1, ls; auto).
  assert (HR' : reachable O c3) by (eapply reachable_step; eauto).
  pose proof (step_hist _ _ _ _ HR S) as Hg.
  assert (Hold : forall j v, find_job i (cw c2) = Some j -> smap_get k (c_tasks (j_context j)) = Some v ->
    v <> "" /\
    ((exists m, In (MTask QUEUE_COMPLETED m) (w_hist (cw c3)) /\ t_job m = i /\ t_var m = k /\ t_result m = v /\
       (t_state m = TSkipped \/ t_state m = TCompleted /\ (t_subjob m <> None \/ worker_completion (w_hist (cw c3)) m))) \/
     (exists p, find_task (t_id p) (cw c3) = Some p /\ t_job p = i /\ t_var p = k /\ composite p = true))).
  { intros j v0 Ej Hv. destruct (IH j v0 Ej Hv) as (Hne & [(m & Hin & H1 & H2 & H3 & H4)|(p & Ep & H1 & H2 & H3)]); (split; [exact Hne|]).
    - left. exists m. ands; auto; [eapply grows_in; eauto|]. destruct H4 as [H4|[H4 [H5|H5]]]; auto.
      right. split; [exact H4|]. right. eapply worker_completion_grows; eauto.
    - right. destruct (step_row _ _ _ _ _ _ HR S Ep) as (p' & Ep' & Hd & _). exists p'.
      apply tdef_proj in Hd as (Hid&Hj&_&_&_&Hvr&_&Hp&He&_). rewrite Hid. ands; auto; try congruence. unfold composite in *. now rewrite Hp, He. }
  destruct (find_job i (cw c2)) as [j|] eqn:Ej.
  2:{ destruct (job_created O _ _ _ _ _ HR S Ej E') as (o & _ & Hn). exfalso. destruct Hn as (_&_&_&_&_&_&_&Hc). rewrite Hc in Hk. discriminate. }
  destruct (effect_cases _ _ _ _ HR S) as [(o & Hq & _)|[(o & x & -> & Hq & Hx & Hsrc)|(o & -> & Hq & Hl)]].
  - destruct Hq as [_ Hq]. specialize (Hq i). rewrite Ej, E' in Hq. destruct Hq as (Hc & _). rewrite Hc in Hk. eauto.
  - destruct (records_job _ _ _ _ _ Hx Ej) as (j2 & E2 & Hc). assert (j2 = j') by congruence. subst j2.
    destruct Hc as [->|(u & u' & Eu & Eu' & Hr & Hj & (_ & _ & _ & Hca) & _)]; [eauto|].
    rewrite (Hca k) in Hk. destruct (String.eqb k (t_var u') && negb (String.eqb (t_result u') "") && negb (String.eqb (t_var u') ""))%bool eqn:Ek; [|eauto].
    apply andb_true_iff in Ek as [Ek _]. apply andb_true_iff in Ek as [Ek Ene]. apply String.eqb_eq in Ek. apply negb_true_iff, String.eqb_neq in Ene.
    injection Hk as <-. split; [exact Ene|].
    destruct Hr as (_ & Hcomp & Hru).
    assert (Huid : t_id u' = x) by (apply tfind_key in Eu'; exact Eu').
    assert (Huj : t_job u' = i) by (rewrite Hru; exact Hj).
    destruct Hsrc as [(m & v' & -> & Hm & Ev & H1 & H2)|(p & Ep & Hcp & _)].
    + left. assert (v' = u') by congruence. subst v'. exists m.
      assert (Hin : In (MTask QUEUE_COMPLETED m) (w_hist (cw c3))) by (eapply handled_hist; eauto).
      destruct (reachable_both _ _ HR') as (_ & (_ & Hkn & _) & _). pose proof (Hkn _ Hin) as (_ & y & Ey & (_&Hyj&_&_&_&_&Hys) & Hyv & _).
      rewrite Hm in Ey. assert (y = u') by congruence. subst y. ands; auto; try congruence.
      destruct Hcomp as [Hcomp|Hcomp]; [|left; congruence]. right. split; [congruence|].
      destruct (t_subjob m) eqn:Esub; [left; discriminate|right]. apply completion_is_workers with (1 := HR'); auto. congruence.
    + right. exists u'. rewrite Huid. assert (p = u) by congruence. subst p. ands; auto. rewrite Hru. exact Hcp.
  - destruct Hl as (Hl & _). rewrite Hl in E'. assert (j = j') by congruence. subst; eauto.
Qed.
Print Assumptions C84_context_entries_are_reported.

(** ** Non-vacuity: one task with a variable, run by a worker *)
From Verif Require Import Sim PropsEffectCases.
Definition var_job := demo_job [(simple "x") <| t_var := "v" |>].
Definition var_run : list cmd :=
  [CApi (OSubmit var_job); CRun 0 100; CDeliver 0; CRun 1 100; CComplete 1 "out"; CDeliver 2; CRun 2 100].
Example C84_nonvacuous : exists i t j, reachable O0 (sim_c O0 start var_run) /\
  find_task i (cw (sim_c O0 start var_run)) = Some t /\ t_state t = TCompleted /\ composite t = false /\ t_subjob t = None /\ t_result t = "out" /\
  find_job (t_job t) (cw (sim_c O0 start var_run)) = Some j /\ smap_get "v" (c_tasks (j_context j)) = Some "out".
Proof.
  exists 2%N. do 2 eexists. split; [apply sim_c_reachable; [|vm_compute; reflexivity]|].
  { apply Forall_cons; [|repeat (apply Forall_cons; [exact I|]); apply Forall_nil].
    split; [discriminate|]. split; [|exact I]. apply Forall_cons; [|apply Forall_nil]. now repeat split. }
  do 6 (split; [vm_compute; reflexivity|]). vm_compute. reflexivity.
Qed.

(** ** A composite task run by a worker
    The tasks of a sub-job are not validated (input/task.go:42 has no `dive`, C40_subjob_queue_refuted), so a parallel task in
    one may name a queue. When RabbitMQ delivers its "pending" message a second time, the redelivery handler
    (handlers/redelivered.go:43-44) sends it to that queue; a worker runs the parallel task itself, and its report completes it
    while the children it was split into are still pending. *)
From Verif Require Import Validate.
Definition fan_out : itask :=
  mkITask "p" "" [] [] "" "alpine" None [] [] "gpu" [] [] [] [] [] None None "" "" "" (Some (mkIPar [plain ""; plain ""])) None None "" [] "" 0.
Definition odd_job : ijob := job_of_tasks [with_sub [plain ""; fan_out]].
Definition odd_run : list cmd :=
  [CApi (OSubmit (to_def [] None odd_job)); CRun 0 100; CDeliver 0; CRun 1 100; CDeliver 1; CRun 2 100; CComplete 2 "a"; CDeliver 3; CRun 3 100;
   CDeliver 4; CRun 4 100; CRedeliver 4; CDeliver 7; CRun 5 100; CComplete 8 "b"; CDeliver 9; CRun 6 100].
Theorem C84_composite_run_by_worker_refuted : exists j O c p k1 k2 x y,
  validate (fun _ => true) (fun _ => true) String.length (fun _ => true) (fun _ => true) j = true /\
  reachable O c /\ find_task p (cw c) = Some x /\ composite x = true /\ t_state x = TCompleted /\ t_result x = "b" /\
  find_task k1 (cw c) = Some y /\ t_parent y = p /\ t_state y = TPending /\
  (exists z, find_task k2 (cw c) = Some z /\ t_parent z = p /\ t_state z = TPending) /\ k1 <> k2.
Proof.
  exists odd_job, O0, (sim_c O0 start odd_run), 5%N, 6%N, 7%N. do 2 eexists. split; [reflexivity|].
  split.
  { apply sim_c_reachable; [|vm_compute; reflexivity]. apply Forall_cons; [|repeat (apply Forall_cons; [exact I|]); apply Forall_nil].
    apply (C50_machine_takes_it (fun _ => true) (fun _ => true) String.length (fun _ => true) (fun _ => true)). reflexivity. }
  split; [vm_compute; reflexivity|]. do 3 (split; [vm_compute; reflexivity|]). split; [vm_compute; reflexivity|].
  do 2 (split; [vm_compute; reflexivity|]). split; [|discriminate]. eexists. do 2 (split; [vm_compute; reflexivity|]). vm_compute. reflexivity.
Qed.
Print Assumptions C84_composite_run_by_worker_refuted.
