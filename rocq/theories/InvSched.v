(** Scheduling, starting and restarting preserve the invariant and respect the state machines. *)
From Verif Require Export InvProofs.
Open Scope string_scope.
Open Scope list_scope.
Open Scope Z_scope.

Lemma eval_task_ok f t t' : eval_task f t = inl t' -> task_ok t -> task_ok t'.
Proof.
  intros H (A & B & C & D & E). apply eval_task_frame in H
    as (nm&vr&im&qu&en&fi&pr&po&pa&cm&sj& -> & _ & _ & _ & _ & _ & _ & _ & _ & Hpa & _ & Hsj).
  unfold task_ok; cbn. ands; auto; try lia.
  - destruct (t_parallel t) as [p|]; [|now subst]. destruct Hpa as (ts & Hl & ->). cbn.
    apply eval_list_forall2 in Hl. clear - Hl C. induction Hl; constructor; inversion C; subst; eauto using eval_pristine.
  - destruct (t_subjob t) as [s|]; [|now subst]. destruct Hsj as (s' & Hs & ->).
    apply eval_subjob_frame in Hs as (?&?&?&?& -> & _). cbn. exact E.
Qed.
Lemma eval_task_shape f t t' : eval_task f t = inl t' ->
  is_some (t_parallel t') = is_some (t_parallel t) /\ is_some (t_each t') = is_some (t_each t) /\
  is_some (t_subjob t') = is_some (t_subjob t).
Proof.
  intros H. apply eval_task_frame in H
    as (nm&vr&im&qu&en&fi&pr&po&pa&cm&sj& -> & _ & _ & _ & _ & _ & _ & _ & _ & Hpa & _ & Hsj). cbn.
  ands; auto.
  - destruct (t_parallel t); [destruct Hpa as (?&?& ->)|subst]; auto.
  - destruct (t_subjob t); [destruct Hsj as (?&?& ->)|subst]; auto.
Qed.
Lemma pristine_task_ok t : pristine t -> task_ok t.
Proof.
  intros H. apply pristine_eq in H as (?&?&?&Hr&?&?&?&?&?&?&?&?&H1&H2&H3&H4). unfold task_ok. ands; auto; try lia.
  - destruct (t_retry t) as [r|]; cbn; [lia|auto].
  - destruct (t_parallel t); tauto.
  - destruct (t_each t); tauto.
  - destruct (t_subjob t); tauto.
Qed.
Lemma clone_task_ok t : task_ok t -> task_ok (clone_task t).
Proof.
  intros (A & B & C & D & E). destruct t; unfold task_ok in *; cbn in *. ands; auto; try lia.
  - destruct t_retry; cbn in *; auto.
  - destruct t_parallel; cbn in *; auto. apply Forall_map. eapply Forall_impl; [|exact C]. intros; now apply clone_pristine.
  - destruct t_each; cbn in *; auto. now apply clone_pristine.
  - destruct t_subjob; cbn in *; auto. apply Forall_map. eapply Forall_impl; [|exact E]. intros; now apply clone_pristine.
Qed.

Lemma apply_defaults_ok j t : defaults_ok (j_defaults j) -> task_ok t -> task_ok (apply_defaults j t).
Proof.
  intros Hd (A & B & C & D & E). unfold apply_defaults.
  destruct (j_defaults j) as [d|]; [|unfold task_ok; cbn; auto].
  unfold task_ok. cbn in Hd.
  destruct (d_limits d), (d_retry d); cbn;
    (destruct (t_priority t =? 0); cbn; ands; auto; try lia);
    (destruct (t_retry t) as [r0|]; cbn in *;
     [destruct (r_limit r0 =? 0) eqn:El; cbn; [apply Z.eqb_eq in El|]|]; lia).
Qed.
Lemma task_eta t : t = mkTask (t_id t) (t_job t) (t_parent t) (t_position t) (t_name t) (t_description t) (t_state t)
  (t_created t) (t_scheduled t) (t_started t) (t_completed t) (t_failed t) (t_cmd t) (t_entrypoint t) (t_run t) (t_image t)
  (t_registry t) (t_env t) (t_files t) (t_queue t) (t_redelivered t) (t_error t) (t_pre t) (t_post t) (t_sidecars t)
  (t_mounts t) (t_networks t) (t_node t) (t_retry t) (t_limits t) (t_timeout t) (t_result t) (t_var t) (t_if t)
  (t_parallel t) (t_each t) (t_subjob t) (t_gpus t) (t_tags t) (t_workdir t) (t_priority t) (t_progress t) (t_probe t).
Proof. destruct t; reflexivity. Qed.
Definition sched_frame (t t' : task) : Prop :=
  t' = t <| t_queue := t_queue t' |> <| t_limits := t_limits t' |> <| t_timeout := t_timeout t' |>
         <| t_retry := t_retry t' |> <| t_priority := t_priority t' |>.
Lemma apply_defaults_frame j t : sched_frame t (apply_defaults j t).
Proof.
  unfold sched_frame, apply_defaults. destruct t. generalize (j_defaults j). intros d.
  destruct d as [[dr dl dt dq dp]|]; [|reflexivity].
  destruct dl, dr; cbv -[orelse Z.eqb]; destruct (Z.eqb t_priority 0); reflexivity.
Qed.

Lemma sched_frame_proj t t' : sched_frame t t' ->
  t_id t' = t_id t /\ t_job t' = t_job t /\ t_parent t' = t_parent t /\ t_position t' = t_position t /\
  t_redelivered t' = t_redelivered t /\ t_parallel t' = t_parallel t /\ t_each t' = t_each t /\ t_subjob t' = t_subjob t /\
  t_state t' = t_state t /\ t_if t' = t_if t /\ t_var t' = t_var t /\ t_node t' = t_node t /\ t_result t' = t_result t.
Proof. unfold sched_frame. intros H. ands; rewrite H; reflexivity. Qed.
Lemma task_ok_fields t t' : task_ok t ->
  t_retry t' = t_retry t -> t_redelivered t' = t_redelivered t -> t_parallel t' = t_parallel t ->
  t_each t' = t_each t -> t_subjob t' = t_subjob t -> task_ok t'.
Proof. unfold task_ok. intros H -> -> -> -> ->. exact H. Qed.

Section Sched.
Variable O : oracle.
Variable o : origin.
Notation W := (wp Inv rely (guarantee o)).
Notation PN := (PN o).
Notation PT := (PT o).

Ltac errs_tac := let w := fresh "w" in let e := fresh "e" in intros w e ?; cbn; auto.

Definition may_sched (i : id) : Prop :=
  (from_queue QUEUE_PENDING o /\ task_of o = Some i) \/ from_job_msg JPending o.

Lemma step_sched u u' :
  may_sched (t_id u) -> t_job u = job_of o -> tdef u' = tdef u ->
  t_state u' = TScheduled \/ t_state u' = TRunning \/ t_state u' = TSkipped ->
  t_error u' = t_error u -> t_failed u' = t_failed u -> t_result u' = t_result u -> t_completed u' = t_completed u ->
  task_step o u u'.
Proof.
  intros Hs Hj Hd Hst H1 H2 H3 H4. unfold task_step. ands; auto; try congruence.
  right. apply te_sched; auto.
Qed.

Lemma known_job t w u : task_known w t -> find_task (t_id t) w = Some u -> t_job u = t_job t.
Proof. intros Hk E. pose proof (task_known_id _ _ _ Hk E) as H. apply H. Qed.

(** The message about a known task. *)
Lemma msg_task_ok w t t' q :
  task_ok t' -> task_known w t ->
  t_id t' = t_id t -> t_job t' = t_job t -> t_parent t' = t_parent t -> t_position t' = t_position t ->
  is_some (t_parallel t') = is_some (t_parallel t) -> is_some (t_each t') = is_some (t_each t) ->
  is_some (t_subjob t') = is_some (t_subjob t) -> msg_ok w (MTask q t').
Proof. intros. cbn. split; [assumption|]. eapply task_known_fields; eauto. Qed.

Lemma W_schedule_regular t w0 :
  may_sched (t_id t) -> t_job t = job_of o -> task_ok t -> task_known w0 t -> W w0 (schedule_regular t) (PT t).
Proof.
  intros Hm Hj Hok Hk. unfold schedule_regular.
  apply W_bind, W_now. intros w n HR. apply W_bind, W_get_job; [errs_tac|].
  intros w1 j HR1 HI1 _ _ Hjok.
  assert (Hd : defaults_ok (j_defaults j)) by apply Hjok.
  pose proof (apply_defaults_ok _ _ Hd Hok) as Hok1.
  destruct (sched_frame_proj _ _ (apply_defaults_frame j t)) as (A1&A2&A3&A4&A5&A6&A7&A8&_).
  set (ta := apply_defaults j t) in *. clearbody ta.
  set (t' := ta <| t_state := TScheduled |> <| t_scheduled := Some n |>).
  assert (Hok' : task_ok t') by (apply (task_ok_fields ta); auto).
  assert (B : t_id t' = t_id t /\ t_job t' = t_job t /\ t_parent t' = t_parent t /\ t_position t' = t_position t /\
    t_parallel t' = t_parallel t /\ t_each t' = t_each t /\ t_subjob t' = t_subjob t /\ t_state t' = TScheduled) by (unfold t'; cbn; auto 10).
  clearbody t'. destruct B as (B1&B2&B3&B4&B5&B6&B7&B8).
  assert (Hk1 : task_known w1 t) by (eapply task_known_rely; [|exact Hk]; eauto using rely_trans).
  apply W_with_msg; [exact B1|exact Hok'| |].
  { eapply task_known_fields; [exact Hk1| | | | | | |]; congruence. }
  apply W_bind, W_update_task; [errs_tac|].
  intros w2 u HR2 HI2 E Hid Hu. cbn [modi].
  pose proof (known_job _ _ _ (task_known_rely _ _ _ HR2 Hk1) E) as Hju.
  split; [reflexivity|]. split; [|split].
  - destruct Hu as (?&?&?&?&?), Hok' as (?&_). unfold task_ok; cbn. ands; auto; lia.
  - apply step_sched; cbn; auto; congruence.
  - intros w3 HR3 _. apply W_publish; [errs_tac| |cbn; auto].
    intros w4 HR4 HI4. apply (msg_task_ok _ t); try congruence.
    eapply task_known_rely; [|exact Hk1]. eauto using rely_trans.
Qed.

Lemma make_subjob_ok pj t s n sid att :
  task_ok t -> t_subjob t = Some s -> job_ok (make_subjob pj t s n sid att).
Proof.
  intros (_ & _ & _ & _ & H) E. rewrite E in H. unfold job_ok, make_subjob; cbn.
  ands; auto; try easy; lia.
Qed.

Lemma mark_subjob_step t u n sid s :
  may_sched (t_id u) -> t_job u = job_of o -> task_ok u -> about t u -> t_subjob t = Some s ->
  match mark_subjob_running n sid u with
  | Ok (u', _) => tdef u' = tdef u /\ task_ok u' /\ task_step o u u'
  | _ => False end.
Proof.
  intros Hm Hj Hu Ha Es. unfold mark_subjob_running.
  destruct (t_subjob u) as [su|] eqn:Esu.
  - assert (Hd : tdef (u <| t_state := TRunning |> <| t_scheduled := Some n |> <| t_started := Some n |>
                    <| t_subjob := Some (su <| s_id := sid |>) |>) = tdef u).
    { destruct u; cbn in *; subst. reflexivity. }
    split; [exact Hd|]. split.
    + destruct Hu as (?&?&?&?&Hx). rewrite Esu in Hx. unfold task_ok; cbn. ands; auto; lia.
    + apply step_sched; cbn; auto.
  - destruct Ha as (_&_&_&_&_&_&Hx). rewrite Es, Esu in Hx. discriminate.
Qed.

Lemma W_schedule_attached t s w0 :
  may_sched (t_id t) -> t_job t = job_of o -> task_ok t -> task_known w0 t -> t_subjob t = Some s ->
  W w0 (schedule_attached t s) PN.
Proof.
  intros Hm Hj Hok Hk Es. unfold schedule_attached.
  apply W_bind, W_get_job; [errs_tac|]. intros w1 j HR1 HI1 _ _ _.
  apply W_bind, W_now. intros w2 n HR2.
  apply W_bind, W_new_id. intros w3 sid HR3 HI3 Hsid _.
  apply (task_known_rely w0 w3) in Hk; [|eauto using rely_trans].
  apply W_bind, W_update_task; [errs_tac|].
  intros w4 u HR4 HI4 E Hid Hu.
  pose proof (task_known_rely _ _ _ HR4 Hk) as Hk4.
  pose proof (known_job _ _ _ Hk4 E) as Hju.
  assert (Hms : may_sched (t_id u)) by congruence.
  pose proof (mark_subjob_step t u n sid s Hms ltac:(congruence) Hu (task_known_id _ _ _ Hk4 E) Es) as Hmark.
  destruct (mark_subjob_running n sid u) as [[u' []]| | |]; try contradiction.
  destruct Hmark as (H1 & H2 & H3). ands; auto. intros w5 HR5 _.
  apply W_bind, W_create_job; [errs_tac| |now apply make_subjob_ok|unfold job_new; cbn; auto 10| |].
  - cbn. assert (w_fresh w3 <= w_fresh w5)%N by apply HR5. lia.
  - intros _. cbn. apply (task_known_rely _ _ _ HR5) in Hk as (x & Ex & Hx). exists x. split; [exact Ex|].
    destruct Hx as (_&_&_&_&_&_&Hx). now rewrite Hx, Es.
  - intros w6 HR6 E6. apply W_publish; [errs_tac| |cbn; auto].
    intros w7 HR7 HI7. cbn. ands; auto; [|].
    + eapply job_known_rely; [exact HR7|]. now apply job_known_row.
    + destruct Hok as (_&_&_&_&H). now rewrite Es in H.
Qed.

Lemma W_schedule_detached t s w0 :
  may_sched (t_id t) -> t_job t = job_of o -> task_ok t -> task_known w0 t -> t_subjob t = Some s ->
  W w0 (schedule_detached t s) (PT t).
Proof.
  intros Hm Hj Hok Hk Es. unfold schedule_detached.
  apply W_bind, W_get_job; [errs_tac|]. intros w1 j HR1 HI1 _ _ _.
  apply W_bind, W_now. intros w2 n HR2.
  apply W_bind, W_new_id. intros w3 sid HR3 HI3 Hsid _.
  apply (task_known_rely w0 w3) in Hk; [|eauto using rely_trans].
  apply W_bind, W_create_job; [errs_tac|cbn; lia|now apply make_subjob_ok|unfold job_new; cbn; auto 10| |].
  { intros H. now destruct H. }
  intros w4 HR4 E4.
  apply W_bind, W_publish; [errs_tac| |].
  { intros w7 HR7 HI7. cbn. ands; auto; [|].
    + eapply job_known_rely; [exact HR7|]. now apply job_known_row.
    + destruct Hok as (_&_&_&_&H). now rewrite Es in H. }
  intros w5 HR5. apply W_bind, W_update_task; [errs_tac|].
  intros w6 u HR6 HI6 E Hid Hu.
  assert (Hk4 : task_known w6 t) by (eapply task_known_rely; [|exact Hk]; eauto using rely_trans).
  pose proof (known_job _ _ _ Hk4 E) as Hju.
  assert (Hms : may_sched (t_id u)) by congruence.
  pose proof (mark_subjob_step t u n sid s Hms ltac:(congruence) Hu (task_known_id _ _ _ Hk4 E) Es) as Hmark.
  destruct (mark_subjob_running n sid u) as [[u' []]| | |]; try contradiction.
  destruct Hmark as (H1 & H2 & H3). ands; auto. intros w7 HR7 _.
  assert (Hk7 : task_known w7 t) by (eapply task_known_rely; [|exact Hk]; eauto using rely_trans).
  apply W_with_msg; [reflexivity|exact Hok| |].
  { eapply task_known_fields; [exact Hk7| | | | | | |]; reflexivity. }
  apply W_publish; [errs_tac| |cbn; auto].
  intros w8 HR8 HI8. apply (msg_task_ok _ t); auto; try reflexivity. eauto using task_known_rely.
Qed.

(** What a handler may store as a new task. *)
Lemma W_create_publish t w0 (pub : bool) (Q : prog unit) :
  (0 < t_id t < w_fresh w0)%N -> task_ok t -> t_job t = job_of o ->
  t_state t = TPending \/ t_state t = TCreated \/ t_state t = TFailed -> parent_known w0 t ->
  (forall w, rely w0 w -> W w Q PN) ->
  W w0 (create_task t ;;; (if pub then publish_task QUEUE_PENDING t else ret tt) ;;; Q) PN.
Proof.
  intros Hid Hok Hj Hst Hp HQ.
  apply W_bind, W_create_task; [errs_tac|exact Hid|now apply task_ok_db| |exact Hp|].
  { unfold task_new; cbn; auto. }
  intros w HR E. apply W_bind. destruct pub.
  - apply W_publish; [errs_tac| |].
    + intros w' HR' HI'. cbn. split; [exact Hok|]. eapply task_known_rely; [exact HR'|]. now apply task_known_created.
    + intros w' HR'. apply HQ. eauto using rely_trans.
  - apply W_done. auto.
Qed.

Lemma child_parent_known w t c :
  task_known w t -> composite t = true -> t_parent c = t_id t -> t_job c = t_job t -> (t_id t < t_id c)%N -> parent_known w c.
Proof.
  intros (u & E & Ha) Hc Hp Hj Hlt _. rewrite Hp. split; [exact Hlt|]. exists u. split; [exact E|].
  destruct Ha as (?&?&?&?&H1&H2&?). split; [congruence|]. unfold composite in *. now rewrite H1, H2.
Qed.

Lemma W_fail_publish t w0 e :
  task_ok t -> task_known w0 t ->
  W w0 (publish_task QUEUE_ERROR (t <| t_error := e |> <| t_state := TFailed |>)) PN.
Proof.
  intros Hok Hk. apply W_publish; [errs_tac| |cbn; auto].
  intros w HR HI. apply (msg_task_ok _ t); auto; try reflexivity. eauto using task_known_rely.
Qed.

Lemma W_each_children t e j n l : forall def ix w0, pristine def ->
  task_ok t -> task_known w0 t -> t_each t = Some e -> t_job t = job_of o -> j_id j = t_job t ->
  W w0 (each_children O t e j n def ix l) PN.
Proof.
  induction l as [|x r IH]; intros def ix w0 Hpr Hok Hk Ee Hjo Hj; cbn [each_children]; [exact I|].
  apply W_bind, W_new_id. intros w i HR HI Hi Hlt. specialize (Hlt t Hk).
  pose proof (task_known_rely _ _ _ HR Hk) as Hk1.
  match goal with |- context [evaluate_each_task O ?et _ _ _ _] => set (et0 := et) end.
  destruct (evaluate_each_task O et0 (j_context j) (orelse (e_var e) "item") ix x) as [et'|err] eqn:Ev.
  2:{ now apply W_fail_publish. }
  assert (Hok0 : task_ok et0).
  { assert (H : task_ok (clone_task def)) by (apply pristine_task_ok, clone_pristine; assumption). exact H. }
  unfold evaluate_each_task in Ev. pose proof (eval_task_ok _ _ _ Ev Hok0) as Hok'.
  pose proof (eval_task_core _ _ _ Ev) as Hc. unfold same_core in Hc. cbn in Hc.
  destruct Hc as (C1&C2&C3&C4&C5&_).
  apply W_create_publish; auto.
  - rewrite C1. lia.
  - rewrite C2. congruence.
  - rewrite C5. destruct (each_fired e ix); auto.
  - apply (child_parent_known _ t); auto; try congruence.
    all: unfold composite; rewrite Ee; cbn; now rewrite orb_true_r.
  - intros w' HR'. apply IH; auto using write_cmds_pristine. eauto using task_known_rely.
Qed.

Lemma W_parallel_children t p j n l : forall w0,
  task_ok t -> task_known w0 t -> t_parallel t = Some p -> Forall pristine l -> t_job t = job_of o -> j_id j = t_job t ->
  W w0 (parallel_children O t j n l) PN.
Proof.
  induction l as [|x r IH]; intros w0 Hok Hk Ee Hl Hjo Hj; cbn [parallel_children]; [exact I|].
  inversion Hl as [|? ? Hx Hr]; subst.
  apply W_bind, W_new_id. intros w i HR HI Hi Hlt. specialize (Hlt t Hk).
  pose proof (task_known_rely _ _ _ HR Hk) as Hk1.
  match goal with |- context [evaluate_task O ?et _] => set (et0 := et) end.
  destruct (evaluate_task O et0 (j_context j)) as [et'|err] eqn:Ev.
  2:{ now apply W_fail_publish. }
  assert (Hok0 : task_ok et0) by (apply pristine_task_ok in Hx; exact Hx).
  unfold evaluate_task in Ev. pose proof (eval_task_ok _ _ _ Ev Hok0) as Hok'.
  pose proof (eval_task_core _ _ _ Ev) as Hc. unfold same_core in Hc. cbn in Hc.
  destruct Hc as (C1&C2&C3&C4&C5&_).
  apply (W_create_publish et' w true); auto.
  - rewrite C1. lia.
  - rewrite C2. congruence.
  - apply (child_parent_known _ t); auto; try congruence.
    all: unfold composite; now rewrite Ee.
  - intros w' HR'. apply IH; auto. eauto using task_known_rely.
Qed.

Lemma W_schedule_each t e w0 :
  may_sched (t_id t) -> t_job t = job_of o -> task_ok t -> task_known w0 t -> t_each t = Some e ->
  W w0 (schedule_each O t e) PN.
Proof.
  intros Hm Hj Hok Hk Ee. unfold schedule_each.
  apply W_bind, W_now. intros w n HR. apply W_bind, W_get_job; [errs_tac|].
  intros w1 j HR1 HI1 _ Hjid _.
  apply (task_known_rely w0 w1) in Hk; [|eauto using rely_trans].
  destruct (o_list O (j_context j) (e_list e)) as [[l|]|err]; try now apply W_fail_publish.
  apply W_bind, W_update_task; [errs_tac|].
  intros w2 u HR2 HI2 E Hid Hu.
  pose proof (task_known_rely _ _ _ HR2 Hk) as Hk2.
  pose proof (known_job _ _ _ Hk2 E) as Hju.
  unfold mark_each_running. destruct (t_each u) as [eu|] eqn:Eeu.
  2:{ destruct (task_known_id _ _ _ Hk2 E) as (_&_&_&_&_&Hx&_). rewrite Eeu, Ee in Hx. discriminate. }
  assert (Hd : forall e', e_var e' = e_var eu -> e_list e' = e_list eu -> e_task e' = e_task eu -> e_concurrency e' = e_concurrency eu ->
     tdef (u <| t_state := TRunning |> <| t_scheduled := Some n |> <| t_started := Some n |> <| t_each := Some e' |>) = tdef u).
  { intros e'. destruct u, e'; cbn in *; subst; cbn. destruct eu; cbn. intros; subst. reflexivity. }
  ands.
  - apply Hd; reflexivity.
  - destruct Hu as (?&?&?&Hx&?). rewrite Eeu in Hx. unfold task_ok; cbn. ands; auto; lia || tauto.
  - apply step_sched; cbn; auto; try congruence.
  - intros w3 HR3 _. apply W_each_children; auto; [destruct Hok as (_&_&_&HH&_); now rewrite Ee in HH|]. eauto using task_known_rely.
Qed.

Lemma W_schedule_parallel t p w0 :
  may_sched (t_id t) -> t_job t = job_of o -> task_ok t -> task_known w0 t -> t_parallel t = Some p ->
  W w0 (schedule_parallel O t p) PN.
Proof.
  intros Hm Hj Hok Hk Ee. unfold schedule_parallel.
  apply W_bind, W_now. intros w n HR.
  apply (task_known_rely w0 w) in Hk; [|eauto using rely_trans].
  apply W_bind, W_update_task; [errs_tac|].
  intros w2 u HR2 HI2 E Hid Hu. cbn [modi].
  pose proof (task_known_rely _ _ _ HR2 Hk) as Hk2.
  pose proof (known_job _ _ _ Hk2 E) as Hju.
  ands; auto.
  - apply step_sched; cbn; auto; congruence.
  - intros w3 HR3 _. apply W_bind, W_get_job; [errs_tac|].
    intros w4 j HR4 HI4 _ Hjid _. eapply W_parallel_children; eauto using task_known_rely, rely_trans.
    destruct Hok as (_&_&H&_). now rewrite Ee in H.
Qed.

Lemma W_schedule_task t w0 :
  may_sched (t_id t) -> t_job t = job_of o -> task_ok t -> task_known w0 t -> W w0 (schedule_task O t) (PT t).
Proof.
  intros Hm Hj Hok Hk. unfold schedule_task.
  destruct (t_parallel t) eqn:E1.
  { eapply W_conseq; [now apply W_schedule_parallel|]. intros; now apply PN_PT. }
  destruct (t_each t) eqn:E2.
  { eapply W_conseq; [now apply W_schedule_each|]. intros; now apply PN_PT. }
  destruct (t_subjob t) as [s|] eqn:E3; [|now apply W_schedule_regular].
  destruct (s_detached s); [now apply W_schedule_detached|].
  eapply W_conseq; [now apply W_schedule_attached|]. intros; now apply PN_PT.
Qed.

Lemma W_pending t w0 :
  may_sched (t_id t) -> t_job t = job_of o -> task_ok t -> task_known w0 t -> W w0 (pending_handler O t) (PT t).
Proof.
  intros Hm Hj Hok Hk. unfold pending_handler.
  destruct (String.eqb _ _); [|now apply W_schedule_task].
  unfold skip_task. apply W_bind, W_now. intros w n HR.
  apply (task_known_rely w0 w) in Hk; [|assumption].
  apply W_with_msg; [reflexivity|exact Hok| |].
  { eapply task_known_fields; [exact Hk| | | | | | |]; reflexivity. }
  apply W_bind, W_update_task; [errs_tac|].
  intros w2 u HR2 HI2 E Hid Hu. cbn [modi].
  pose proof (known_job _ _ _ (task_known_rely _ _ _ HR2 Hk) E) as Hju.
  ands; auto.
  - apply step_sched; cbn; auto; congruence.
  - intros w3 HR3 _. apply W_publish; [errs_tac| |cbn; auto].
    intros w4 HR4 HI4. apply (msg_task_ok _ t); auto; try reflexivity. eauto using task_known_rely, rely_trans.
Qed.

(** A fresh instance of a job's task. *)
Lemma instantiate_spec j t pos i n :
  pristine t ->
  let x := instantiate O j t pos i n in
  t_id x = i /\ t_job x = j_id j /\ t_parent x = noid /\ t_position x = pos /\ task_ok x /\
  t_redelivered x = 0 /\ (t_state x = TPending \/ t_state x = TFailed).
Proof.
  intros Hp. unfold instantiate.
  match goal with |- context [evaluate_task O ?a _] => set (t1 := a) end.
  assert (Hok1 : task_ok t1) by (apply pristine_task_ok in Hp; exact Hp).
  apply pristine_eq in Hp as (Hp1&Hp2&Hp3&Hp4&_).
  destruct (evaluate_task O t1 (j_context j)) as [t2|e] eqn:Ev.
  - unfold evaluate_task in Ev. pose proof (eval_task_ok _ _ _ Ev Hok1).
    pose proof (eval_task_core _ _ _ Ev) as Hc. unfold same_core, t1 in Hc. cbn in Hc.
    destruct Hc as (C1&C2&C3&C4&C5&_&_&_&_&_&C6&_). ands; auto; try congruence.
  - ands; auto.
Qed.

Definition PJ {A} (w : world) (r : outcome A) : Prop :=
  match r with Panic => panic_site o | OutOfFuel => False | _ => True end.
Lemma PN_PJ {A} w (r : outcome A) : PN w r -> PJ w r.
Proof. destruct r as [|e [|]| |]; cbn; auto. Qed.
Lemma PT_PJ {A} t w (r : outcome A) : PT t w r -> PJ w r.
Proof. destruct r as [|e [|]| |]; cbn; auto. Qed.

Lemma W_start_job j w0 :
  o = OMsg (MJob j) -> j_state j = JPending -> Forall pristine (j_tasks j) -> job_known w0 j ->
  W w0 (start_job O j) PJ.
Proof.
  intros Ho Hs Hpr Hk. unfold start_job.
  assert (Hfj : from_job_msg JPending o) by (exists j; auto).
  assert (Hj : j_id j = job_of o) by (now subst).
  destruct (j_tasks j) as [|t0 l] eqn:Ej.
  { cbn. left. exists j. auto. }
  inversion Hpr as [|? ? Hp0 _]; subst.
  apply W_bind, W_now. intros w n HR.
  apply W_bind, W_new_id. intros w1 i HR1 HI1 Hi _.
  pose proof (instantiate_spec j t0 1 i n Hp0) as Hx. cbv zeta in Hx.
  set (t := instantiate O j t0 1 i n) in *. destruct Hx as (X1&X2&X3&X4&X5&X6&X7).
  apply W_bind, W_create_task; [errs_tac|rewrite X1; lia|now apply task_ok_db| | |].
  { unfold task_new; cbn. ands; auto; try congruence; tauto. }
  { intros Hn. now rewrite X3 in Hn. }
  intros w2 HR2 E2. apply W_bind, W_now. intros w3 n2 HR3.
  apply W_bind, W_update_job; [errs_tac|].
  intros w4 u HR4 HI4 E4 Hid4 Hu. cbn [modi].
  ands; auto.
  - destruct Hu as (?&?&?&?&?&?). unfold job_ok; cbn. ands; auto; try easy; lia.
  - unfold job_step; cbn. ands; auto; try (intros; congruence).
    right. now apply je_start.
  - intros w5 HR5 _. destruct (tstate_eqb (t_state t) TFailed).
    + apply W_bind, W_now. intros w6 n3 HR6.
      eapply W_conseq; [apply W_fail_job|intros; now apply PN_PJ]; auto.
      * eexists; exact Ho.
      * eapply (job_known_def _ j); [|reflexivity]. eapply job_known_rely; [|exact Hk]. eauto 10 using rely_trans.
    + eapply W_conseq; [apply W_pending|intros; eapply PT_PJ; eassumption]; auto.
      * right; auto.
      * congruence.
      * apply task_known_created in E2. eapply task_known_rely; [|exact E2]. eauto using rely_trans.
Qed.

Lemma nth_task_some l i t : nth_task l i = Some t -> In t l.
Proof. unfold nth_task. destruct (i <? 0); [easy|]. apply nth_error_In. Qed.
Lemma nth_task_none l i : nth_task l i = None -> i < 0 \/ Z.of_nat (length l) <= i.
Proof.
  unfold nth_task. destruct (i <? 0) eqn:E; [intros; left; apply Z.ltb_lt in E; lia|].
  intros H. right. apply nth_error_None in H. apply Z.ltb_ge in E. lia.
Qed.

(** Storing and publishing the instance of the job's task at the current position. *)
Lemma W_next_task j t0 pos i n w0 :
  pristine t0 -> (0 < i < w_fresh w0)%N -> j_id j = job_of o ->
  W w0 (let nx := instantiate O j t0 pos i n in create_task nx ;;; publish_task QUEUE_PENDING nx) PN.
Proof.
  intros Hp Hi Hj.
  pose proof (instantiate_spec j t0 pos i n Hp) as Hx. cbv zeta in Hx. cbv zeta.
  set (t := instantiate O j t0 pos i n) in *. destruct Hx as (X1&X2&X3&X4&X5&X6&X7).
  apply W_bind, W_create_task; [errs_tac|rewrite X1; lia|now apply task_ok_db| | |].
  { unfold task_new; cbn. ands; auto; [congruence|tauto]. }
  { intros Hn. now rewrite X3 in Hn. }
  intros w2 HR2 E2. apply W_publish; [errs_tac| |cbn; auto].
  intros w' HR' HI'. cbn. split; [exact X5|]. eapply task_known_rely; [exact HR'|]. now apply task_known_created.
Qed.

Lemma W_restart_job j w0 :
  o = OMsg (MJob j) -> j_state j = JRestart -> Forall pristine (j_tasks j) ->
  1 <= j_position j <= Z.of_nat (length (j_tasks j)) ->
  W w0 (restart_job O j) PN.
Proof.
  intros Ho Hs Hpr Hpos. unfold restart_job.
  assert (Hfj : from_job_msg JRestart o) by (exists j; auto).
  assert (Hj : j_id j = job_of o) by (now subst).
  apply W_bind, W_update_job; [errs_tac|].
  intros w u HR HI E Hid Hu.
  assert (Hpost : forall w', rely w0 w' -> W w' (let* n := now in
    match nth_task (j_tasks j) (j_position j - 1) with
    | Some t0 =>
        let* i := new_id in
        let t := instantiate O j t0 (j_position j) i n in create_task t;;; publish_task QUEUE_PENDING t
    | None => panic
    end) PN).
  { intros w' HR'. apply W_bind, W_now. intros w1 n HR1.
    destruct (nth_task (j_tasks j) (j_position j - 1)) as [t0|] eqn:En.
    - apply W_bind, W_new_id. intros w2 i HR2 HI2 Hi _. apply W_next_task; auto.
      apply nth_task_some in En. rewrite Forall_forall in Hpr. auto.
    - apply nth_task_none in En. lia. }
  assert (Hcase : j_state u = JFailed \/ j_state u = JCancelled ->
     jdef (u <| j_state := JRunning |> <| j_failed := None |>) = jdef u /\
     job_ok (u <| j_state := JRunning |> <| j_failed := None |>) /\
     job_step o u (u <| j_state := JRunning |> <| j_failed := None |>)).
  { intros Hc. assert (1 <= j_position u).
    { destruct Hu as (_&_&_&_&H&_). apply H. destruct Hc as [-> | ->]; discriminate. }
    split; [reflexivity|]. split.
    - destruct Hu as (?&?&?&?&?&?). unfold job_ok; cbn. ands; auto; easy.
    - unfold job_step; cbn. ands; auto; try (intros; congruence).
      + right. apply je_restart; auto.
      + intros Ex. exfalso. destruct Hc; congruence. }
  destruct (j_state u); try exact I; (destruct Hcase as (?&?&?); [auto|]; ands; auto).
Qed.

End Sched.
