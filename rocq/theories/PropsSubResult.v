(** Property theorems, C85: a task that runs a sub-job completes with a result of that sub-job. Over every execution of the
    interleaving machine (System.v). Vocabulary: SpecState.v, PropsResult.v. *)
From Verif Require Import EffectCount PropsState PropsResult.
Open Scope string_scope.
Open Scope list_scope.
Open Scope Z_scope.

(** ** Vocabulary *)

(** at some time between [c0] and [c], a job whose parent is the task [p] was COMPLETED with the result [r] *)
Definition subjob_completed (O : oracle) (c0 c : config) (p : id) (r : string) : Prop :=
  exists ls1 c1 ls2 k j, exec O c0 ls1 c1 /\ exec O c1 ls2 c /\ find_job k (cw c1) = Some j /\ j_parent j = p /\
    j_state j = JCompleted /\ j_result j = r.

Lemma exec_app O a l1 b l2 c : exec O a l1 b -> exec O b l2 c -> exec O a (l1 ++ l2) c.
Proof. intros H1 H2. induction H2; [now rewrite app_nil_r|]. rewrite app_assoc. eapply exec_snoc; eauto. Qed.

(** every step of an execution meets the question asked about its completed jobs *)
Lemma exec_seen O c0 ls c : exec O c0 ls c -> exec_where O (Pb (subjob_completed O c0 c) false) c0 ls c.
Proof.
  intros E. assert (H : forall ls1 c1 ls2, exec O c0 ls1 c1 -> exec O c1 ls2 c -> exec_where O (Pb (subjob_completed O c0 c) false) c0 ls1 c1).
  { intros ls1 c1 ls2 E1. revert ls2. induction E1 as [|a ls1 b l d E1 IH S]; intros ls2 E2; [constructor|].
    econstructor; [|exact S|].
    - apply (IH E _ (exec_app _ _ _ _ _ _ (exec_snoc _ _ _ _ _ _ (exec_nil _ _) S) E2)).
    - split; [discriminate|]. intros k j Ej Hs. exists (ls1 ++ [l]), d, ls2, k, j. ands; auto. eapply exec_snoc; eauto. }
  apply (H ls c []); [exact E|constructor].
Qed.

(** ** C85 *)
Theorem C85_subjob_task_result : forall O c0 ls c i t s, initial c0 -> exec O c0 ls c -> find_task i (cw c) = Some t ->
  t_state t = TCompleted -> composite t = false -> t_subjob t = Some s -> s_detached s = false ->
  subjob_completed O c0 c i (t_result t) \/
  (exists r, worker_completion (w_hist (cw c)) r /\ t_id r = i /\ t_result r = t_result t).
Proof.
  intros O c0 ls c i t s Hi E Et Hs Hc Hj Hd.
  assert (HR : reachable O c) by (exists c0, ls; auto).
  destruct (completed_message _ _ _ _ HR Et Hs Hc) as (m & Hin & Hm & Hms & Hres).
  destruct (both_where O _ false _ _ _ (both_initial O _ false _ Hi) (exec_seen _ _ _ _ E)) as ((_ & (_ & Hk & Hw) & _) & _).
  pose proof (Hw _ Hin) as (_ & _ & H). apply Hk in Hin. destruct Hin as (_ & u & Eu & _ & _ & _ & _ & Hdet).
  rewrite Hm in Eu. assert (u = t) by congruence. subst u.
  destruct (H eq_refl Hms) as [(_ & [Hx|Hx])|(h1 & h2 & Eh & He)].
  - unfold detached_of in Hdet at 1. rewrite Hj in Hdet. congruence.
  - left. now rewrite Hm, Hres in Hx.
  - right. exists m. ands; auto. inversion He; subst. exists h1, h2, q, t0. auto 10.
Qed.
Print Assumptions C85_subjob_task_result.

(** what templates see as [tasks.k]: the result a worker reported, the result of a sub-job that completed, or that of a parallel or
    each task, a detached sub-job's task or a skipped task *)
Theorem C85_context_entries : forall O c0 ls c i j k v, initial c0 -> exec O c0 ls c -> find_job i (cw c) = Some j ->
  smap_get k (c_tasks (j_context j)) = Some v ->
  (exists r, worker_completion (w_hist (cw c)) r /\ t_job r = i /\ t_var r = k /\ t_result r = v) \/
  (exists t, find_task (t_id t) (cw c) = Some t /\ t_job t = i /\ t_var t = k /\ t_subjob t <> None /\ subjob_completed O c0 c (t_id t) v) \/
  (exists t, find_task (t_id t) (cw c) = Some t /\ t_job t = i /\ t_var t = k /\ (composite t = true \/ detached_of t = true)) \/
  (exists m, In (MTask QUEUE_COMPLETED m) (w_hist (cw c)) /\ t_job m = i /\ t_var m = k /\ t_result m = v /\ t_state m = TSkipped).
Proof.
  intros O c0 ls c i j k v Hi E Ej Hk. assert (HR : reachable O c) by (exists c0, ls; auto).
  destruct (C84_context_entries_are_reported _ _ _ _ _ _ HR Ej Hk) as (_ & [(m & Hin & H1 & H2 & H3 & [H4|[H4 [H5|H5]]])|(p & Ep & H1 & H2 & H3)]).
  - right. right. right. exists m. auto.
  - destruct (both_where O _ false _ _ _ (both_initial O _ false _ Hi) (exec_seen _ _ _ _ E)) as ((_ & (_ & Hkn & Hw) & _) & _).
    pose proof (Hw _ Hin) as (_ & _ & H). pose proof (Hkn _ Hin) as (_ & u & Eu & (U1&U2&_&_&_&_&U7) & U8 & _ & _ & U9).
    assert (Hu : find_task (t_id u) (cw c) = Some u) by (rewrite U1; exact Eu).
    destruct (H eq_refl H4) as [(_ & [Hx|Hx])|(h1 & h2 & Eh & He)].
    + right. right. left. exists u. ands; auto; try congruence. right. congruence.
    + right. left. exists u. ands; auto; try congruence.
      destruct (t_subjob u); [discriminate|]. destruct (t_subjob m); [discriminate U7|contradiction].
    + left. exists m. ands; auto. inversion He; subst. exists h1, h2, q, t. auto 10.
  - left. exists m. auto.
  - right. right. left. exists p. auto.
Qed.
Print Assumptions C85_context_entries.

(** ** Non-vacuity: a task whose sub-job has the output "out"; the worker's own result is "r" *)
From Verif Require Import Sim.
Definition sub_job := demo_job [blank_task <| t_name := "sub" |> <| t_var := "v" |> <| t_subjob := Some (mkSubJob noid "s" "" [simple "x"] [] [] None "out" false []) |>].
Definition sub_run : list cmd :=
  [CApi (OSubmit sub_job); CRun 0 100; CDeliver 0; CRun 1 100; CDeliver 1; CRun 2 100; CComplete 2 "r"; CDeliver 3; CRun 3 100; CDeliver 4; CRun 4 100].
Example C85_nonvacuous : exists ls t s j, exec O0 start ls (sim_c O0 start sub_run) /\ find_task 2%N (cw (sim_c O0 start sub_run)) = Some t /\
  t_state t = TCompleted /\ composite t = false /\ t_subjob t = Some s /\ s_detached s = false /\ t_result t = "out" /\
  find_job (t_job t) (cw (sim_c O0 start sub_run)) = Some j /\ smap_get "v" (c_tasks (j_context j)) = Some "out".
Proof.
  exists (sim_l O0 start sub_run). do 3 eexists. split; [apply sim_c_exec; [|vm_compute; reflexivity]|].
  { apply Forall_cons; [|repeat (apply Forall_cons; [exact I|]); apply Forall_nil].
    split; [discriminate|]. split; [|exact I]. apply Forall_cons; [|apply Forall_nil]. now repeat split. }
  do 7 (split; [vm_compute; reflexivity|]). vm_compute. reflexivity.
Qed.
