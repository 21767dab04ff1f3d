(** Every handler, walked with the rules of Effects.v. *)
From Verif Require Export Effects.
Open Scope string_scope.
Open Scope list_scope.
Open Scope Z_scope.

Lemma attempts_defaults j t : attempts_of (apply_defaults j t) = attempts_of t.
Proof.
  unfold attempts_of, apply_defaults. destruct (j_defaults j) as [d|]; [|reflexivity].
  destruct (d_limits d), (d_retry d); cbn;
    (destruct (t_priority t =? 0); cbn; [|]); (destruct (t_retry t); cbn; [|try reflexivity]);
    repeat match goal with |- context [if ?c then _ else _] => destruct c end; reflexivity.
Qed.
Lemma pristine_counts t : pristine t -> attempts_of t = 0 /\ count_of t = 0.
Proof.
  intros H. apply pristine_eq in H as (_&_&_&_&_&_&_&_&_&_&_&_&H1&H2&H3&_). unfold attempts_of, count_of. split.
  - destruct (t_retry t); auto.
  - destruct (t_parallel t); [tauto|]. destruct (t_each t); tauto.
Qed.
Lemma eval_counts f t t' : eval_task f t = inl t' -> attempts_of t' = attempts_of t /\ count_of t' = count_of t.
Proof.
  intros H. apply eval_task_frame in H
    as (nm&vr&im&qu&en&fi&pr&po&pa&cm&sj& -> & _ & _ & _ & _ & _ & _ & _ & _ & Hpa & _ & _). split; [reflexivity|].
  unfold count_of; cbn. destruct (t_parallel t) as [p|]; [|now subst]. destruct Hpa as (ts & _ & ->). reflexivity.
Qed.
Lemma clone_counts t : attempts_of (clone_task t) = attempts_of t /\ count_of (clone_task t) = count_of t.
Proof. destruct t; unfold attempts_of, count_of; cbn. destruct t_retry, t_parallel, t_each; auto. Qed.

(** rows whose counters and definitions a closure keeps *)
Lemma quiet_row_keep o t t' : t_result t' = t_result t -> t_completed t' = t_completed t -> t_parallel t' = t_parallel t ->
  t_each t' = t_each t -> t_state t' <> TCompleted \/ t_state t' = t_state t -> (t_state t' <> TPending \/ t_state t' = t_state t) ->
  quiet_row o t t'.
Proof.
  intros H1 H2 H3 H4 H5 H6. unfold quiet_row, count_of. rewrite H3, H4. ands; auto.
  - intros E. destruct H5; congruence.
  - intros [E1 E2]. destruct H6; congruence.
Qed.

Section Walk.
Variable O : oracle.
Variable D : id -> string -> Prop.
Variable b q : bool.
Variable o : origin.
Notation K := (Kb D b).
Notation R := (Rb b).
Notation G := (Gb O b q o).
Notation W := (wx K (I2 D) R G).
Ltac pub_tac := first [exact I | split; [|split]; cbn; first [discriminate|congruence|(intros; congruence)]].
Ltac xpub := apply X_publish; [try pub_tac|..].

Definition QN {A} (w : world) (r : outcome A) : Prop := match r with Err _ (Some _) => False | _ => True end.
Definition QT {A} (t : task) (w : world) (r : outcome A) : Prop :=
  match r with Err _ (Some t') => t_id t' = t_id t /\ kn w t' | _ => True end.
Lemma QN_QT {A} t w (r : outcome A) : QN w r -> QT t w r.
Proof. destruct r as [|e [m|]| |]; cbn; auto. easy. Qed.

Ltac errs_tac := let w := fresh "w" in let r := fresh "r" in let H := fresh "H" in
  intros w r _ H; destruct r as [|? [|]| |]; solve [contradiction | exact I | cbn; auto].

Lemma X_with_msg {A} t t' (p : prog A) w0 :
  t_id t' = t_id t -> kn w0 t' -> W w0 p QN -> W w0 (with_msg t' p) (QT t).
Proof.
  intros Hid Hk H. unfold with_msg. apply X_catch. eapply X_conseq; [exact H|].
  intros w r HR Hr. destruct r as [a|e [m|]| |]; cbn in *; auto; try easy.
  split; [assumption|]. eapply kn_R; eauto.
Qed.

Lemma X_cancel_tasks l : forall w0, Forall (kn w0) l -> W w0 (cancel_tasks l) QN.
Proof.
  induction l as [|t l IH]; intros w0 Hl; cbn [cancel_tasks]; [exact I|].
  inversion Hl as [|? ? Hk Hl']; subst.
  assert (Hrest : forall w, R w0 w -> W w (cancel_tasks l) QN).
  { intros w HR. apply IH. eapply Forall_impl; [|exact Hl']. intros a Ha. eapply kn_R; eauto. }
  apply X_bind, X_update_task; [apply noerr_modi|errs_tac|].
  intros w u u' a HR HI E Hid Ef. injection Ef as <-.
  split; [reflexivity|]. split; [apply quiet_row_keep; cbn; auto; left; discriminate|]. split; [reflexivity|].
  intros w1 HR1. clear w u HR HI E Hid.
  apply X_bind.
  match goal with |- W _ ?p _ => assert (Hp : W w1 p QN) end.
  2:{ eapply X_conseq; [exact Hp|]. intros w2 r HR2 Hr. destruct r; auto. apply Hrest. eapply Rb_trans; eauto. }
  assert (Hnode : W w1 (if has_id (t_node t) then
             let* n := get_node (t_node t) in publish_task (n_queue n) (t <| t_state := TCancelled |>)
           else ret tt) QN).
  { destruct (has_id (t_node t)); [|exact I].
    apply X_bind, X_get_node; [errs_tac|]. intros w n HR Hnq.
    xpub; [errs_tac| |cbn; auto].
    intros w' HR'. apply (kn_alike _ t); [|unfold alike; auto 15|].
    - eapply kn_R; [|exact Hk]. eauto using Rb_trans.
    - apply (kn_ok _ _ Hk). }
  destruct (t_subjob t) as [s|]; [|exact Hnode].
  destruct (has_id (s_id s)); [|exact Hnode].
  apply X_bind, X_get_job; [errs_tac|]. intros w j HR E Hid Hjok.
  xpub; [errs_tac|cbn; auto|cbn; auto].
Qed.
Lemma X_cancel_active i w0 : W w0 (cancel_active_tasks i) QN.
Proof.
  unfold cancel_active_tasks. apply X_bind, X_get_active; [errs_tac|].
  intros w l HR Hl. now apply X_cancel_tasks.
Qed.

Lemma quiet_job_keep j j' : j_context j' = j_context j -> j_position j' = j_position j -> j_deleteat j' = j_deleteat j ->
  (j_state j' = JCompleted -> j_state j = JCompleted) -> (j_progress j' = j_progress j \/ exists t, o = OMsg (MProgress t)) -> quiet_job O o j j'.
Proof. intros H1 H2 H3 H4 H5. unfold quiet_job, deletion_step. auto 10. Qed.

Lemma X_fail_job j w0 : W w0 (fail_job j) QN.
Proof.
  unfold fail_job. apply X_bind, X_update_job; [apply noerr_modi|errs_tac|].
  intros w u u' a HR HI E Hid Ef. injection Ef as <-.
  split; [destruct (job_live _); reflexivity|]. split.
  { destruct (job_live (j_state u)); [apply quiet_job_keep; cbn; auto; discriminate|apply quiet_job_refl]. }
  intros w1 HR1. destruct (has_id (j_parent j)).
  - apply X_bind, X_get_task; [errs_tac|]. intros w2 t HR2 Et Hidt Hk.
    xpub; [errs_tac| |cbn; auto]. intros w3 HR3.
    apply (kn_alike _ t); [eapply kn_R; eauto|unfold alike; auto 15|apply (kn_ok _ _ Hk)].
  - apply X_bind. eapply X_conseq; [apply X_cancel_active|].
    intros w2 r HR2 Hr. destruct r as [|? [|]| |]; auto. apply X_bind, X_get_job; [errs_tac|].
    intros w3 j' HR3 _ _ _. destruct (jstate_eqb (j_state j') JFailed); [|exact I].
    xpub; [errs_tac|cbn; auto|cbn; auto].
Qed.

Lemma X_cancel_handler j w0 : W w0 (cancel_handler j) QN.
Proof.
  unfold cancel_handler. apply X_bind, X_update_job; [apply noerr_modi|errs_tac|].
  intros w u u' a HR HI E Hid Ef. injection Ef as <-.
  split; [destruct (job_live _); reflexivity|]. split.
  { destruct (job_live (j_state u)); [apply quiet_job_keep; cbn; auto; discriminate|apply quiet_job_refl]. }
  intros w1 HR1. apply X_bind.
  match goal with |- W _ ?p _ => assert (Hp : W w1 p QN) end.
  2:{ eapply X_conseq; [exact Hp|]. intros w2 r HR2 Hr. destruct r as [|? [|]| |]; auto. apply X_cancel_active. }
  destruct (has_id (j_parent j)); [|exact I].
  apply X_bind, X_catch, X_get_task; [errs_tac|]. intros w2 t HR2 _ _ _.
  apply X_bind, X_catch, X_get_job; [errs_tac|]. intros w3 pj HR3 _ _ _.
  apply X_catch; xpub; [errs_tac|cbn; auto|cbn; auto].
Qed.

Lemma X_mark_running j w0 : W w0 (mark_running j) QN.
Proof.
  unfold mark_running. apply X_update_job; [apply noerr_modi|errs_tac|].
  intros w u u' a HR HI E Hid Ef. injection Ef as <-.
  split; [destruct (jstate_eqb _ _); reflexivity|]. split; [|intros; exact I].
  destruct (jstate_eqb _ _); [apply quiet_job_keep; cbn; auto; discriminate|apply quiet_job_refl].
Qed.


Lemma complete_job_modify_quiet j n u u' a : j_autodelete u = j_autodelete j -> complete_job_modify O j n u = Ok (u', a) ->
  j_id u' = j_id u /\ quiet_job O o u u'.
Proof.
  unfold complete_job_modify. destruct (job_live (j_state u)); [|discriminate]. intros Ha.
  destruct (o_tmpl O (j_context j) None (j_output j)) as [res|err].
  2:{ intros E. injection E as <- <-. split; [reflexivity|]. apply quiet_job_keep; cbn; auto; discriminate. }
  unfold quiet_job, deletion_step, deletion_time. rewrite Ha. unfold nonempty, is_empty.
  destruct (j_autodelete j) as [ad|]; [destruct (String.eqb_spec (ad_after ad) "") as [Ee|Ee];
    [|destruct (o_dur O (ad_after ad)) eqn:Ed]|].
  all: try rewrite Ee; cbn.
  all: intros E; injection E as <- <-; cbn; ands; auto.
  all: right; split; [reflexivity|]; exists n; auto.
Qed.
Lemma complete_job_modify_result j n u u' a : complete_job_modify O j n u = Ok (u', a) ->
  j_state a = JFailed \/ (j_state u' = JCompleted /\ j_result u' = j_result a /\ j_parent u' = j_parent u).
Proof.
  unfold complete_job_modify. destruct (job_live (j_state u)); [|discriminate].
  destruct (o_tmpl O (j_context j) None (j_output j)) as [res|err].
  2:{ intros E. injection E as <- <-. left. reflexivity. }
  destruct (j_autodelete j) as [ad|]; [destruct (nonempty (ad_after ad)); [destruct (o_dur O (ad_after ad))|]|];
    intros E; injection E as <- <-; right; repeat split.
Qed.
Lemma noerr_complete_job j n : noerr (complete_job_modify O j n).
Proof.
  intros u. unfold complete_job_modify. destruct (job_live (j_state u)); [|exact I].
  destruct (o_tmpl O (j_context j) None (j_output j)); [|exact I].
  destruct (j_autodelete j) as [a|]; [destruct (nonempty (ad_after a)); [destruct (o_dur O (ad_after a))|]|]; exact I.
Qed.

Lemma X_complete_job j w0 u0 : find_job (j_id j) w0 = Some u0 -> jdef u0 = jdef j -> W w0 (complete_job O j) QN.
Proof.
  intros Hu0 Hd0. unfold complete_job. apply X_bind, X_now. intros w c HR.
  apply X_bind, X_update_job_since; [apply noerr_complete_job|errs_tac|].
  intros w1 u u' a HR1 HI1 E Hid Ef.
  assert (Had : j_autodelete u = j_autodelete j).
  { assert (HRR : rely w0 w1) by (eapply rely_trans; [apply HR|apply HR1]).
    destruct (rely_job _ _ _ _ HRR Hu0) as (x & Ex & Hx & _). assert (x = u) by congruence. subst x.
    apply jdef_proj in Hx as (_&_&_&_&_&_&Hx). apply jdef_proj in Hd0 as (_&_&_&_&_&_&Hy). congruence. }
  destruct (complete_job_modify_quiet _ _ _ _ _ Had Ef) as (Q1 & Q2). split; [exact Q1|]. split; [exact Q2|].
  intros w2 HR2 HR12 HD. pose proof (complete_job_modify_result _ _ _ _ _ Ef) as Hres. destruct (has_id (j_parent j)) eqn:Ehp.
  - apply X_bind, X_get_task; [errs_tac|]. intros w3 t HR3 Et Hidt Hk.
    apply X_bind, X_now. intros w4 n2 HR4.
    assert (Hsub : is_some (t_subjob t) = true).
    { assert (HRR : rely w0 w1) by (eapply rely_trans; [apply HR|apply HR1]).
      destruct (rely_job _ _ _ _ HRR Hu0) as (x & Ex & Hx & _). assert (x = u) by congruence. subst x.
      apply jdef_proj in Hx as (_&Hpx&_). apply jdef_proj in Hd0 as (_&Hpy&_).
      destruct (inv_jobs _ HI1 u (tfind_in _ _ _ _ E)) as [_ Hjp]. unfold job_parent_known in Hjp. rewrite Hpx, Hpy in Hjp.
      destruct Hjp as (p & Ep & Hp); [intros Hn; rewrite Hn in Ehp; discriminate|].
      destruct (Rb_row _ _ _ _ _ (Rb_trans _ _ _ _ HR12 HR3) Ep) as (p' & Ep' & Hd & _). assert (p' = t) by congruence. subst p'.
      apply tdef_proj in Hd as (_&_&_&_&_&_&_&_&_&Hd). congruence. }
    assert (Hsrc : jstate_eqb (j_state a) JFailed = false -> src D (t <| t_state := TCompleted |> <| t_completed := Some n2 |> <| t_result := j_result a |>)).
    { intros Hf. split; [exact Hsub|]. right. destruct Hres as [Hres|(Hs & Hr & Hpar)]; [rewrite Hres in Hf; discriminate|].
      cbn. rewrite Hidt, <- Hr. replace (j_parent j) with (j_parent u'); [now apply HD|].
      assert (HRR : rely w0 w1) by (eapply rely_trans; [apply HR|apply HR1]).
      destruct (rely_job _ _ _ _ HRR Hu0) as (x & Ex & Hx & _). assert (x = u) by congruence. subst x.
      apply jdef_proj in Hx as (_&Hpx&_). apply jdef_proj in Hd0 as (_&Hpy&_). congruence. }
    destruct (jstate_eqb (j_state a) JFailed); (apply X_publish; [split; [|split]; cbn; auto; discriminate|errs_tac| |cbn; auto]);
      intros w5 HR5; (apply (kn_alike _ t); [eapply kn_R; [|exact Hk]; eauto using Rb_trans|unfold alike; auto 15|apply (kn_ok _ _ Hk)]).
  - destruct (jstate_eqb (j_state a) JFailed); (xpub; [errs_tac|cbn; auto|cbn; auto]).
Qed.

(* -------------------------------------------------------------- *)
(** ** Scheduling *)

Lemma X_fail_publish t w0 e : kn w0 t -> W w0 (publish_task QUEUE_ERROR (t <| t_error := e |> <| t_state := TFailed |>)) QN.
Proof.
  intros Hk. xpub; [errs_tac| |cbn; auto].
  intros w HR. apply (kn_alike _ t); [eapply kn_R; eauto|unfold alike; auto 15|apply (kn_ok _ _ Hk)].
Qed.

Lemma X_schedule_regular t w0 : kn w0 t -> W w0 (schedule_regular t) (QT t).
Proof.
  intros Hk. unfold schedule_regular.
  apply X_bind, X_now. intros w n HR. apply X_bind, X_get_job; [errs_tac|].
  intros w1 j HR1 _ _ Hjok.
  assert (Hd : defaults_ok (j_defaults j)) by apply Hjok.
  pose proof (apply_defaults_ok _ _ Hd (kn_ok _ _ Hk)) as Hok1.
  pose proof (attempts_defaults j t) as Hat.
  destruct (sched_frame_proj _ _ (apply_defaults_frame j t)) as (A1&A2&A3&A4&A5&A6&A7&A8&_&_&A11&_).
  set (ta := apply_defaults j t) in *. clearbody ta.
  set (t' := ta <| t_state := TScheduled |> <| t_scheduled := Some n |>).
  assert (Hok' : task_ok t') by (apply (task_ok_fields ta); auto).
  assert (Hat' : attempts_of t' = attempts_of t) by exact Hat.
  assert (B : alike t t') by (unfold alike, detached_of, t'; cbn; rewrite ?A8; auto 15).
  assert (Hst : t_state t' = TScheduled) by reflexivity.
  clearbody t'.
  assert (Hk1 : kn w1 t) by (eapply kn_R; [|exact Hk]; eauto using Rb_trans).
  apply X_with_msg; [apply B|eapply kn_alike; eauto|].
  apply X_bind, X_update_task; [apply noerr_modi|errs_tac|].
  intros w2 u u' a HR2 HI2 E Hid Ef. injection Ef as <-.
  split; [reflexivity|]. split; [apply quiet_row_keep; cbn; auto; rewrite Hst; left; discriminate|]. split.
  { change (attempts_of t' = attempts_of u). rewrite Hat'.
    destruct (kn_R _ _ _ _ HR2 Hk1) as (_ & x & Ex & _ & _ & Hx & _). congruence. }
  intros w3 HR3. xpub; [errs_tac| |cbn; auto].
  intros w4 HR4. apply (kn_alike _ t); auto. eapply kn_R; [|exact Hk1]. eauto using Rb_trans.
Qed.

Lemma noerr_subjob n sid : noerr (mark_subjob_running n sid).
Proof. intros u. unfold mark_subjob_running. destruct (t_subjob u); exact I. Qed.
Lemma noerr_each n sid : noerr (mark_each_running n sid).
Proof. intros u. unfold mark_each_running. destruct (t_each u); exact I. Qed.
Lemma subjob_quiet n sid u u' a : mark_subjob_running n sid u = Ok (u', a) ->
  t_id u' = t_id u /\ quiet_row o u u' /\ attempts_of u' = attempts_of u.
Proof.
  unfold mark_subjob_running. destruct (t_subjob u) as [s|]; [|discriminate]. intros E. injection E as <- <-.
  split; [reflexivity|]. split; [apply quiet_row_keep; cbn; auto; left; discriminate|reflexivity].
Qed.

Lemma X_schedule_attached t s w0 : W w0 (schedule_attached t s) QN.
Proof.
  unfold schedule_attached.
  apply X_bind, X_get_job; [errs_tac|]. intros w1 j HR1 _ _ _.
  apply X_bind, X_now. intros w2 n HR2.
  apply X_bind, X_new_id. intros w3 sid HR3.
  apply X_bind, X_update_task; [apply noerr_subjob|errs_tac|].
  intros w4 u u' a HR4 HI4 E Hid Ef. destruct (subjob_quiet _ _ _ _ _ Ef) as (H1 & H2 & H3).
  split; [exact H1|]. split; [exact H2|]. split; [exact H3|]. intros w5 HR5.
  apply X_bind, X_create_job; [errs_tac|reflexivity|reflexivity|]. intros w6 HR6.
  xpub; [errs_tac|cbn; auto|cbn; auto].
Qed.
Lemma X_schedule_detached t s w0 : t_subjob t = Some s -> s_detached s = true -> kn w0 t -> W w0 (schedule_detached t s) (QT t).
Proof.
  intros Hsj Hdet Hk. unfold schedule_detached.
  apply X_bind, X_get_job; [errs_tac|]. intros w1 j HR1 _ _ _.
  apply X_bind, X_now. intros w2 n HR2.
  apply X_bind, X_new_id. intros w3 sid HR3.
  apply X_bind, X_create_job; [errs_tac|reflexivity|reflexivity|]. intros w4 HR4.
  apply X_bind; xpub; [errs_tac|cbn; auto|]. intros w5 HR5.
  apply X_bind, X_update_task; [apply noerr_subjob|errs_tac|].
  intros w6 u u' a HR6 HI6 E Hid Ef. destruct (subjob_quiet _ _ _ _ _ Ef) as (H1 & H2 & H3).
  split; [exact H1|]. split; [exact H2|]. split; [exact H3|]. intros w7 HR7.
  assert (Hk7 : kn w7 t) by (eapply kn_R; [|exact Hk]; eauto 10 using Rb_trans).
  assert (Ha : alike t (t <| t_completed := Some n |> <| t_state := TCompleted |>)) by (unfold alike; auto 15).
  assert (Hok : task_ok (t <| t_completed := Some n |> <| t_state := TCompleted |>)) by apply (kn_ok _ _ Hk).
  apply X_with_msg; [reflexivity|apply (kn_alike _ t); auto|].
  assert (Hsrc : src D (t <| t_completed := Some n |> <| t_state := TCompleted |>)) by (unfold src, detached_of; cbn; rewrite Hsj; auto).
  apply X_publish; [split; [|split]; cbn; auto; discriminate|errs_tac| |cbn; auto]. intros w8 HR8. apply (kn_alike _ t); auto. eapply kn_R; eauto.
Qed.

(** Storing a first attempt, publishing it or not. *)
Lemma X_create_publish t w0 (pub : bool) (P : prog unit) :
  task_ok t -> attempts_of t = 0 -> count_of t = 0 -> t_state t <> TCompleted -> t_state t <> TSkipped ->
  (forall w, R w0 w -> W w P QN) ->
  W w0 (create_task t ;;; (if pub then publish_task QUEUE_PENDING t else ret tt) ;;; P) QN.
Proof.
  intros Hok Hat Hc Hs1 Hs2 HP.
  apply X_bind, X_create_task; [errs_tac|lia| |].
  { intros w HR HI. unfold quiet_new. rewrite attempts_db. auto. }
  intros w HR E. apply X_bind. destruct pub.
  - xpub; [errs_tac| |].
    + intros w' HR'. eapply kn_R; [exact HR'|]. apply kn_created; auto; lia.
    + intros w' HR'. apply HP. eauto using Rb_trans.
  - cbn. auto.
Qed.

Lemma X_each_children t e j n l : forall def ix w0, pristine def -> kn w0 t -> W w0 (each_children O t e j n def ix l) QN.
Proof.
  induction l as [|x r IH]; intros def ix w0 Hpr Hk; cbn [each_children]; [exact I|].
  apply X_bind, X_new_id. intros w i HR.
  pose proof (kn_R _ _ _ _ HR Hk) as Hk1.
  match goal with |- context [evaluate_each_task O ?et _ _ _ _] => set (et0 := et) end.
  destruct (evaluate_each_task O et0 (j_context j) (orelse (e_var e) "item") ix x) as [et'|err] eqn:Ev.
  2:{ now apply X_fail_publish. }
  assert (Hok0 : task_ok et0).
  { assert (H : task_ok (clone_task def)) by (apply pristine_task_ok, clone_pristine; assumption). exact H. }
  assert (Hc0 : attempts_of et0 = 0 /\ count_of et0 = 0).
  { destruct (pristine_counts _ Hpr) as [P1 P2]. destruct (clone_counts def) as [C1 C2].
    change (attempts_of (clone_task def) = 0 /\ count_of (clone_task def) = 0). lia. }
  unfold evaluate_each_task in Ev. pose proof (eval_task_ok _ _ _ Ev Hok0) as Hok'.
  destruct (eval_counts _ _ _ Ev) as [V1 V2].
  pose proof (eval_task_core _ _ _ Ev) as Hc. unfold same_core in Hc. cbn in Hc.
  destruct Hc as (_&_&_&_&C5&_).
  apply X_create_publish; auto; try lia.
  - rewrite C5. destruct (each_fired e ix); discriminate.
  - rewrite C5. destruct (each_fired e ix); discriminate.
  - intros w' HR'. apply IH; auto using write_cmds_pristine. eapply kn_R; eauto.
Qed.

Lemma X_parallel_children t j n l : forall w0, Forall pristine l -> kn w0 t -> W w0 (parallel_children O t j n l) QN.
Proof.
  induction l as [|x r IH]; intros w0 Hl Hk; cbn [parallel_children]; [exact I|].
  inversion Hl as [|? ? Hx Hr]; subst.
  apply X_bind, X_new_id. intros w i HR.
  pose proof (kn_R _ _ _ _ HR Hk) as Hk1.
  match goal with |- context [evaluate_task O ?et _] => set (et0 := et) end.
  destruct (evaluate_task O et0 (j_context j)) as [et'|err] eqn:Ev.
  2:{ now apply X_fail_publish. }
  assert (Hok0 : task_ok et0) by (apply pristine_task_ok in Hx; exact Hx).
  assert (Hc0 : attempts_of et0 = 0 /\ count_of et0 = 0) by (apply pristine_counts in Hx; exact Hx).
  unfold evaluate_task in Ev. pose proof (eval_task_ok _ _ _ Ev Hok0) as Hok'.
  destruct (eval_counts _ _ _ Ev) as [V1 V2].
  pose proof (eval_task_core _ _ _ Ev) as Hc. unfold same_core in Hc. cbn in Hc.
  destruct Hc as (_&_&_&_&C5&_).
  apply (X_create_publish et' w true); auto; try lia; try (rewrite C5; discriminate).
  intros w' HR'. apply IH; auto. eapply kn_R; eauto.
Qed.

Lemma X_schedule_each t e w0 : schedules o (t_id t) -> kn w0 t -> t_each t = Some e -> W w0 (schedule_each O t e) QN.
Proof.
  intros Hs Hk Ee. unfold schedule_each.
  apply X_bind, X_now. intros w n HR. apply X_bind, X_get_job; [errs_tac|].
  intros w1 j HR1 _ _ _.
  assert (Hk1 : kn w1 t) by (eapply kn_R; [|exact Hk]; eauto using Rb_trans).
  destruct (o_list O (j_context j) (e_list e)) as [[l|]|err]; try now apply X_fail_publish.
  apply X_bind, X_update_task; [apply noerr_each|errs_tac|].
  intros w2 u u' a HR2 HI2 E Hid Ef. unfold mark_each_running in Ef. destruct (t_each u) as [eu|] eqn:Eeu; [|discriminate].
  injection Ef as <- <-. split; [reflexivity|]. split; [|split; [reflexivity|]].
  - unfold quiet_row, count_of; cbn. rewrite Eeu, Hid. cbn. ands; auto; try discriminate. intros [_ X]; discriminate.
  - intros w3 HR3. apply X_each_children; [|eapply kn_R; eauto].
    destruct (kn_ok _ _ Hk) as (_&_&_&HH&_). now rewrite Ee in HH.
Qed.
Lemma X_schedule_parallel t p w0 : kn w0 t -> t_parallel t = Some p -> W w0 (schedule_parallel O t p) QN.
Proof.
  intros Hk Ee. unfold schedule_parallel.
  apply X_bind, X_now. intros w n HR.
  apply X_bind, X_update_task; [apply noerr_modi|errs_tac|].
  intros w2 u u' a HR2 HI2 E Hid Ef. injection Ef as <-.
  split; [reflexivity|]. split; [apply quiet_row_keep; cbn; auto; left; discriminate|]. split; [reflexivity|].
  intros w3 HR3. apply X_bind, X_get_job; [errs_tac|]. intros w4 j HR4 _ _ _.
  apply X_parallel_children; [|eapply kn_R; [|exact Hk]; eauto using Rb_trans].
  destruct (kn_ok _ _ Hk) as (_&_&HH&_). now rewrite Ee in HH.
Qed.
Lemma X_schedule_task t w0 : schedules o (t_id t) -> kn w0 t -> W w0 (schedule_task O t) (QT t).
Proof.
  intros Hs Hk. unfold schedule_task.
  destruct (t_parallel t) eqn:E1.
  { eapply X_conseq; [now apply X_schedule_parallel|]. intros; now apply QN_QT. }
  destruct (t_each t) eqn:E2.
  { eapply X_conseq; [now apply X_schedule_each|]. intros; now apply QN_QT. }
  destruct (t_subjob t) as [s|] eqn:E3; [|now apply X_schedule_regular].
  destruct (s_detached s) eqn:Hdet; [now apply X_schedule_detached|].
  eapply X_conseq; [now apply X_schedule_attached|]. intros; now apply QN_QT.
Qed.
Lemma X_pending t w0 : schedules o (t_id t) -> kn w0 t -> W w0 (pending_handler O t) (QT t).
Proof.
  intros Hs Hk. unfold pending_handler.
  destruct (String.eqb _ _); [|now apply X_schedule_task].
  unfold skip_task. apply X_bind, X_now. intros w n HR.
  match goal with |- W _ (with_msg ?x _) _ => set (t' := x) end.
  assert (Ha : alike t t') by (unfold alike, t'; auto 15).
  assert (Hok : task_ok t') by apply (kn_ok _ _ Hk).
  apply X_with_msg; [reflexivity|apply (kn_alike _ t); auto; eapply kn_R; eauto|].
  apply X_bind, X_update_task; [apply noerr_modi|errs_tac|].
  intros w2 u u' a HR2 HI2 E Hid Ef. injection Ef as <-.
  split; [reflexivity|]. split; [apply quiet_row_keep; cbn; auto; left; discriminate|]. split; [reflexivity|].
  intros w3 HR3. xpub; [errs_tac| |cbn; auto].
  intros w4 HR4. apply (kn_alike _ t); auto. eapply kn_R; [|exact Hk]. eauto using Rb_trans.
Qed.

Lemma instantiate_counts j t pos i n : pristine t ->
  attempts_of (instantiate O j t pos i n) = 0 /\ count_of (instantiate O j t pos i n) = 0.
Proof.
  intros Hp. apply pristine_counts in Hp. unfold instantiate.
  match goal with |- context [evaluate_task O ?a _] => set (t1 := a) end.
  assert (H1 : attempts_of t1 = 0 /\ count_of t1 = 0) by exact Hp.
  destruct (evaluate_task O t1 (j_context j)) as [t2|e] eqn:Ev; [|exact H1].
  destruct (eval_counts _ _ _ Ev) as [V1 V2]. lia.
Qed.

Lemma X_start_job j w0 :
  o = OMsg (MJob j) -> j_state j = JPending -> Forall pristine (j_tasks j) -> W w0 (start_job O j) (fun _ _ => True).
Proof.
  intros Ho Hs Hpr. unfold start_job.
  assert (Hfj : from_job_msg JPending o) by (exists j; auto).
  destruct (j_tasks j) as [|t0 l] eqn:Ej; [exact I|].
  assert (Hp0 : pristine t0) by (now inversion Hpr).
  apply X_bind, X_now. intros w n HR.
  apply X_bind, X_new_id. intros w1 i HR1.
  pose proof (instantiate_spec O j t0 1 i n Hp0) as Hx. cbv zeta in Hx.
  destruct (instantiate_counts j t0 1 i n Hp0) as [V1 V2].
  set (t := instantiate O j t0 1 i n) in *. destruct Hx as (X1&X2&X3&X4&X5&X6&X7).
  apply X_bind, X_create_task; [errs_tac|lia| |].
  { intros w2 HR2 HI2. unfold quiet_new. rewrite attempts_db. cbn. ands; auto; destruct X7; congruence. }
  intros w2 HR2 E2. apply X_bind, X_now. intros w3 n2 HR3.
  apply X_bind, X_update_job; [apply noerr_modi|errs_tac|].
  intros w4 u u' a HR4 HI4 E4 Hid4 Ef. injection Ef as <-.
  split; [reflexivity|]. split.
  { unfold quiet_job, deletion_step; cbn. ands; auto. left. split; auto. discriminate. }
  intros w5 HR5. destruct (tstate_eqb (t_state t) TFailed).
  - apply X_bind, X_now. intros w6 n3 HR6. eapply X_conseq; [apply X_fail_job|auto].
  - eapply X_conseq; [apply X_pending|auto]; [right; exact Hfj|].
    eapply kn_R; [|apply (kn_created w2)]; eauto using Rb_trans. lia.
Qed.

Lemma X_next_task j t0 pos i n w0 : pristine t0 ->
  W w0 (let nx := instantiate O j t0 pos i n in create_task nx ;;; publish_task QUEUE_PENDING nx) QN.
Proof.
  intros Hp.
  pose proof (instantiate_spec O j t0 pos i n Hp) as Hx. cbv zeta in Hx. cbv zeta.
  destruct (instantiate_counts j t0 pos i n Hp) as [V1 V2].
  set (t := instantiate O j t0 pos i n) in *. destruct Hx as (X1&X2&X3&X4&X5&X6&X7).
  apply X_bind, X_create_task; [errs_tac|lia| |].
  { intros w2 HR2 HI2. unfold quiet_new. rewrite attempts_db. cbn. ands; auto; destruct X7; congruence. }
  intros w2 HR2 E2. assert (Hnc : t_state t <> TCompleted) by (destruct X7; congruence). xpub; [errs_tac| |cbn; auto].
  intros w' HR'. eapply kn_R; [exact HR'|]. apply kn_created; auto. lia.
Qed.
Lemma X_restart_job j w0 : Forall pristine (j_tasks j) -> W w0 (restart_job O j) QN.
Proof.
  intros Hpr. unfold restart_job. apply X_bind, X_update_job; [|errs_tac|].
  { intros u. destruct (j_state u); exact I. }
  intros w u u' a HR HI E Hid Ef.
  assert (Hu : u' = u <| j_state := JRunning |> <| j_failed := None |>) by (destruct (j_state u); try discriminate; now injection Ef as <-).
  subst u'. split; [reflexivity|]. split; [apply quiet_job_keep; cbn; auto; discriminate|].
  intros w1 HR1. apply X_bind, X_now. intros w2 n HR2.
  destruct (nth_task (j_tasks j) (j_position j - 1)) as [t0|] eqn:En; [|exact I].
  apply X_bind, X_new_id. intros w3 i HR3. apply X_next_task.
  apply nth_task_some in En. rewrite Forall_forall in Hpr. auto.
Qed.

(* -------------------------------------------------------------- *)
(** ** Completion *)


Lemma row_step_top u u' : recorded_row u u' -> trow u u'.
Proof.
  intros (_ & _ & E). unfold trow, attempts_of, count_of. rewrite E. cbn. split; [reflexivity|lia].
Qed.
Lemma done_trel w w' t : done_by w w' t -> trel t_id trow (fun _ => False) (w_tasks w) (w_tasks w').
Proof.
  intros (u & u' & Eu & Eu' & Hr & Hc & _) i. rewrite <- !find_task_t.
  destruct (N.eq_dec i (t_id t)) as [->|Hn]; [rewrite Eu, Eu'; now apply row_step_top|].
  pose proof (tfind_key _ _ _ _ Eu) as Hid.
  assert (Hsame : find_task i w' = find_task i w -> match find_task i w, find_task i w' with
     | Some x, Some x' => trow x x' | Some _, None => False | None, Some _ => False | None, None => True end).
  { intros ->. destruct (find_task i w); auto using trow_refl. }
  destruct Hc as [(_ & j & j' & _ & _ & _ & Ho & _)|(_ & p & p' & j & j' & rel & Ep & Ep' & Hne & Hcnt & _ & Hpp & _ & _ & _ & _ & _ & Hrel & Ho & _)].
  - apply Hsame, Ho. congruence.
  - destruct (N.eq_dec i (t_parent u)) as [->|Hn2].
    { rewrite Ep, Ep'. split; [|lia]. unfold attempts_of. now rewrite Hpp. }
    destruct rel as [x|].
    + destruct (N.eq_dec i x) as [->|Hn3]; [|apply Hsame, Ho; congruence].
      destruct Hrel as (_ & _ & c & Ec & _ & _ & Ec'). rewrite Ec, Ec'. split; [reflexivity|].
      change (count_of (c <| t_state := TPending |>)) with (count_of c). lia.
    + apply Hsame, Ho; congruence.
Qed.
Lemma leaks_trel w w' : leaks w w' -> trel t_id trow (fun _ => False) (w_tasks w) (w_tasks w').
Proof.
  intros (_ & x & c & Ec & _ & _ & Ec' & Ho) i. rewrite <- !find_task_t.
  destruct (N.eq_dec i x) as [->|Hn].
  - rewrite Ec, Ec'. split; [reflexivity|]. change (count_of (c <| t_state := TPending |>)) with (count_of c). lia.
  - rewrite (Ho i Hn). destruct (find_task i w); auto using trow_refl.
Qed.
Lemma same_trel w w' : same w w' -> trel t_id trow (fun _ => False) (w_tasks w) (w_tasks w').
Proof. intros [-> _]. apply trel_refl, trow_refl. Qed.
Lemma trel_weak w w' : trel t_id trow (fun _ => False) (w_tasks w) (w_tasks w') -> trel t_id trow (fun _ => True) (w_tasks w) (w_tasks w').
Proof. apply trel_impl; auto. Qed.
Lemma I2_tx w w' ms : R w w' -> trel t_id trow (fun _ => False) (w_tasks w) (w_tasks w') -> w_hist w' = w_hist w ++ ms ->
  Forall (fun m => match m with MTask _ t | MProgress t => kn w t | _ => True end) ms -> Forall (wired D (w_hist w ++ ms)) ms -> I2 D w -> I2 D w'.
Proof.
  intros HR Ht Eh Hm Hw (A & B & C). split; [|split; [|rewrite Eh; now apply wired_all]].
  - intros i t Et. specialize (Ht i). rewrite <- !find_task_t in Ht. rewrite Et in Ht.
    destruct (find_task i w) as [x|] eqn:Ex; [|contradiction]. specialize (A _ _ Ex). destruct Ht. lia.
  - intros m. rewrite Eh. intros Hin. assert (H : match m with MTask _ t | MProgress t => kn w t | _ => True end).
    { apply in_app_or in Hin as [Hin|Hin]; [now apply B|]. rewrite Forall_forall in Hm. now apply Hm. }
    destruct m; auto; eapply kn_R; eauto.
Qed.

Lemma width_parallel p p' : tdef p' = tdef p -> is_some (t_parallel p) = true -> width_of p' = width_of p.
Proof.
  intros Hd Hp. assert (E : t_parallel (tdef p') = t_parallel (tdef p)) by (now rewrite Hd). cbn in E.
  unfold width_of. destruct (t_parallel p) as [x|]; [|discriminate]. destruct (t_parallel p') as [y|]; [|discriminate].
  destruct x as [xt xc], y as [yt yc]. cbn in E. injection E as E. subst. reflexivity.
Qed.
Lemma filled_R w w' i : R w w' -> filled b w i -> filled b w' i.
Proof.
  intros HR (p & Ep & Hc & Hf). destruct (Rb_row _ _ _ _ _ HR Ep) as (p' & Ep' & Hd & Hat & Hcnt). exists p'.
  split; [exact Ep'|]. split; [now rewrite (composite_def _ _ Hd)|].
  intros Hb. assert (Hb' : is_some (t_parallel p) = true \/ b = true).
  { destruct Hb as [Hb|Hb]; [left|now right]. apply tdef_proj in Hd as (_&_&_&_&_&_&_&Hx&_). congruence. }
  destruct (Hf Hb') as [F1 F2].
  assert (Hw : width_of p' = width_of p).
  { destruct Hb' as [Hx|Hx]; [now apply width_parallel|]. destruct HR as (_ & _ & Hn). apply (Hn Hx i p p'); auto. }
  lia.
Qed.

Definition chosen (w : world) (t : task) : Prop :=
  (exists m, o = OMsg (MTask QUEUE_COMPLETED m) /\ t_id m = t_id t /\ t_state t = t_state m /\ t_result t = t_result m) \/
  filled b w (t_id t).
Lemma chosen_R w w' t : R w w' -> chosen w t -> chosen w' t.
Proof. intros HR [H|H]; [now left|right; eapply filled_R; eauto]. Qed.

(** the transaction rule, from the case analysis of the transaction *)
Lemma X_tx {A} t (body : act A) w0 (Q : world -> outcome A -> Prop) (P : world -> A -> Prop) :
  q = true -> from_queue QUEUE_COMPLETED o -> chosen w0 t ->
  (forall w w' r, R w0 w -> K w w' -> I2 D w -> a_with_tx body w = (w', r) ->
    w_fresh w' = w_fresh w /\
    (w_hist w' = w_hist w \/ exists nx, find_task (t_id nx) w = Some nx /\ t_state nx = TCreated /\ w_hist w' = w_hist w ++ [rel_msg nx]) /\
    ((notok r /\ (same w w' \/ leaks w w')) \/ (exists a, r = Ok a /\ done_by w w' t /\ P w' a))) ->
  errs b w0 Q -> (forall w a, R w0 w -> P w a -> Q w (Ok a)) ->
  W w0 (with_tx body) Q.
Proof.
  intros Hb Hq Hch Hcase HE HQ. apply wx_op. intros w HR HI HK.
  destruct (a_with_tx body w) as [w' r] eqn:E. cbn [fst snd] in *.
  destruct (Hcase w w' r HR HK HI E) as (Hf & Hh & Hc).
  assert (Ht : trel t_id trow (fun _ => False) (w_tasks w) (w_tasks w')).
  { destruct Hc as [[_ [Hs|Hl]]|(a & _ & Hd & _)]; [now apply same_trel|now apply leaks_trel|eapply done_trel; eauto]. }
  assert (HR' : R w w') by (apply (K_R D); auto; now apply trel_weak).
  assert (HI' : I2 D w').
  { destruct Hh as [Hh|(nx & En & _ & Hh)].
    - eapply (I2_tx w w' []); auto. rewrite Hh. now rewrite app_nil_r.
    - eapply (I2_tx w w' [rel_msg nx]); auto; (constructor; [|constructor]); [|apply pub_wired; split; [|split]; cbn; discriminate].
      assert (Hk : kn w nx) by (apply (kn_row D); auto; apply HK).
      apply (kn_alike _ nx); [exact Hk|unfold alike; auto 15|apply (kn_ok _ _ Hk)]. }
  split; [exact HI'|]. split; [exact HR'|]. destruct Hc as [[Hn [Hs|Hl]]|(a & -> & Hd & HP)].
  - split; [left; apply quiet_same; apply Hs|]. apply HE; [eapply Rb_trans; eauto|exact Hn].
  - split; [right; split; [exact Hb|]; split; [exact Hq|right; exact Hl]|]. apply HE; [eapply Rb_trans; eauto|exact Hn].
  - split; [|apply HQ; [eapply Rb_trans; eauto|exact HP]].
    right. split; [exact Hb|]. split; [exact Hq|]. left. exists (t_id t). split; [now apply done_records|].
    destruct (chosen_R _ _ _ HR Hch) as [(m & Hm & Hid & Hs & Hr)|Hf']; [left|right; exact Hf'].
    destruct Hd as (u & u' & _ & Eu' & _ & _ & Hs' & Hr'). exists m, u'. ands; congruence.
Qed.

Lemma done_count w w' t p' : I2 D w -> done_by w w' t -> t_parent t <> noid -> kn w t -> find_task (t_parent t) w' = Some p' -> 0 < count_of p'.
Proof.
  intros [A _] (u & u' & Eu & Eu' & Hr & Hc & _) Hp (_ & x & Ex & Ha & _) Ep'.
  assert (x = u) by congruence. subst x. destruct Ha as (_ & _ & Hpar & _).
  destruct Hc as [(Hn & _)|(_ & p & q1 & j & j' & rel & Ep & Eq & _ & Hcnt & _)]; [congruence|].
  rewrite Hpar in *. assert (q1 = p') by congruence. subst q1. specialize (A _ _ Ep). lia.
Qed.

Lemma X_complete_top t w0 : q = true -> from_queue QUEUE_COMPLETED o -> kn w0 t -> completion t -> t_parent t = noid -> chosen w0 t ->
  W w0 (complete_top O t) QN.
Proof.
  intros Hb Hq Hk Hc Hp Hch. unfold complete_top. apply X_bind.
  apply (X_tx t _ _ _ (fun _ _ => True)); [exact Hb|exact Hq|exact Hch| |errs_tac|].
  { intros w w' r HR HI H2 E. destruct (tx_top t w w' r (proj1 HI) (kn_R _ _ _ _ HR Hk) Hc Hp E) as (T1 & T2 & T3).
    split; [exact T2|]. split; [now left|]. destruct T3 as [[T3 T4]|[-> T4]]; [left; auto|right; exists tt; auto]. }
  intros w1 _ HR1 _. apply X_bind, X_get_job; [errs_tac|]. intros w2 j HR2 Ej Hid Hjok.
  apply X_bind, X_now. intros w3 n HR3.
  destruct (j_position j <=? Z.of_nat (length (j_tasks j))).
  - destruct (nth_task (j_tasks j) (j_position j - 1)) as [t0|] eqn:En; [|exact I].
    apply X_bind, X_new_id. intros w4 i HR4. apply X_next_task.
    apply nth_task_some in En. destruct Hjok as (Hpr&_). rewrite Forall_forall in Hpr. auto.
  - match goal with |- W _ (job_handler O ?x) _ => change (job_handler O x) with (complete_job O x) end.
    destruct (rely_job w2 w3 (t_job t) j (proj1 HR3) Ej) as (u & Eu & Hd & _).
    eapply X_complete_job; [|exact Hd]. cbn. rewrite Hid. exact Eu.
Qed.

Lemma X_complete_task fuel : forall t w0, q = true -> from_queue QUEUE_COMPLETED o -> kn w0 t -> completion t -> chosen w0 t ->
  W w0 (complete_task O fuel t) QN.
Proof.
  induction fuel as [|fuel IH]; intros t w0 Hb Hq Hk Hc Hch; cbn [complete_task];
    (destruct (has_id (t_parent t)) eqn:Eh;
     [|apply X_complete_top; auto; unfold has_id, is_noid in Eh; apply negb_false_iff in Eh; now apply N.eqb_eq in Eh]).
  { exact I. }
  assert (Hn : t_parent t <> noid) by (intros E; rewrite E in Eh; discriminate).
  apply X_bind, X_get_task; [errs_tac|]. intros w p HR Ep Hidp Hkp.
  apply (kn_R _ _ _ _ HR) in Hk. apply (chosen_R _ _ _ HR) in Hch.
  assert (Hrest : forall (last : bool) w1, R w w1 -> (last = true -> filled b w1 (t_parent t)) -> W w1 (if last
      then let* parent' := get_task (t_parent t) in
           let* n := now in complete_task O fuel (parent' <| t_state := TCompleted |> <| t_completed := Some n |>)
      else ret tt) QN).
  { intros last w1 HR1 Hfull. destruct last; [|exact I]. specialize (Hfull eq_refl).
    apply X_bind, X_get_task; [errs_tac|]. intros w2 q1 HR2 Eq Hidq Hkq.
    apply X_bind, X_now. intros w3 n HR3. apply IH; auto.
    - apply (kn_alike _ q1); [eapply kn_R; eauto|unfold alike; auto 15|apply (kn_ok _ _ Hkq)].
    - left; reflexivity.
    - right. cbn. rewrite Hidq. eapply filled_R; [|exact Hfull]. eauto using Rb_trans. }

  assert (Hfill : forall w1 w' (last : bool), kn w1 t -> K w1 w' -> I2 D w1 -> done_by w1 w' t -> (last = true -> full w' (t_parent t)) ->
            last = true -> filled b w' (t_parent t)).
  { intros w1 w' last Hk1 (HI1 & HI' & HR' & _) H21 Hd Hf Hl. destruct (Hf Hl) as (p' & Ep' & Hw). exists p'. split; [exact Ep'|].
    assert (Hkn : task_known w' t) by (eapply task_known_rely; [exact HR'|now apply kn_known]).
    destruct (known_parent _ _ HI' Hkn Hn) as (_ & x & Ex & _ & Hx). assert (x = p') by congruence. subst x.
    split; [exact Hx|]. intros _. split; [eapply done_count; eauto|exact Hw]. }
  apply X_bind. destruct (t_parallel p) as [pp|] eqn:Epp.
  - apply (X_tx t _ _ _ (fun w' last => last = true -> filled b w' (t_parent t))); [exact Hb|exact Hq|exact Hch| |errs_tac|].
    { intros w1 w' r HR1 HK1 H21 E. destruct (Rb_row _ _ _ _ _ HR1 Ep) as (q1 & Eq & Hd & _).
      assert (Hpq : is_some (t_parallel q1) = true).
      { apply tdef_proj in Hd as (_&_&_&_&_&_&_&Hx&_). now rewrite Hx, Epp. }
      pose proof (kn_R _ _ _ _ HR1 Hk) as Hk1.
      destruct (tx_parallel t w1 w' r q1 (proj1 HK1) Hk1 Hc Hn Eq Hpq E) as (T1 & T2 & T3).
      split; [exact T2|]. split; [now left|]. destruct T3 as [[T3 T4]|(last & -> & T4 & T5)]; [left; auto|right].
      exists last. split; [reflexivity|]. split; [exact T4|]. eapply Hfill; eauto. }
    intros w1 last HR1 HP. apply Hrest; auto.
  - apply (X_tx t _ _ _ (fun w' last => last = true -> filled b w' (t_parent t))); [exact Hb|exact Hq|exact Hch| |errs_tac|].
    { intros w1 w' r HR1 HK1 H21 E. destruct (Rb_row _ _ _ _ _ HR1 Ep) as (q1 & Eq & Hd & _).
      assert (Hpq : t_parallel q1 = None).
      { apply tdef_proj in Hd as (_&_&_&_&_&_&_&Hx&_). rewrite Epp in Hx. now destruct (t_parallel q1). }
      pose proof (kn_R _ _ _ _ HR1 Hk) as Hk1.
      destruct (tx_each t w1 w' r q1 (proj1 HK1) Hk1 Hc Hn Eq Hpq E) as (T1 & T2 & T3).
      split; [exact T1|]. split; [exact T2|]. destruct T3 as [[T3 T4]|(last & -> & T4 & T5)]; [left; auto|right].
      exists last. split; [reflexivity|]. split; [exact T4|]. eapply Hfill; eauto. }
    intros w1 last HR1 HP. apply Hrest; auto.
Qed.

Lemma X_completed fuel t w0 : q = true -> o = OMsg (MTask QUEUE_COMPLETED t) -> kn w0 t ->
  W w0 (completed_handler O fuel t) (QT t).
Proof.
  intros Hb Ho Hk. assert (Hq : from_queue QUEUE_COMPLETED o) by (exists t; exact Ho). unfold completed_handler. apply X_bind, X_now. intros w n HR.
  assert (H : completion t ->
    W w (with_msg (t <| t_completed := Some n |>) (complete_task O fuel (t <| t_completed := Some n |>))) (QT t)).
  { intros Hs. assert (Hk1 : kn w (t <| t_completed := Some n |>)).
    { apply (kn_alike _ t); [eapply kn_R; eauto|unfold alike; auto 15|apply (kn_ok _ _ Hk)]. }
    apply X_with_msg; [reflexivity|exact Hk1|]. apply X_complete_task; auto. left. exists t. ands; auto. }
  unfold completion in H. destruct (t_state t); try exact I; apply H; auto.
Qed.

Lemma X_error t w0 : task_of o = Some (t_id t) -> kn w0 t -> W w0 (error_handler O t) (QT t).
Proof.
  intros Ht Hk. unfold error_handler.
  apply X_bind, X_get_job; [errs_tac|]. intros w j HR Ej Hid Hjok.
  apply X_bind, X_now. intros w1 n HR1.
  set (t1 := t <| t_failed := Some n |>).
  assert (Hk1 : kn w1 t1).
  { apply (kn_alike _ t); [eapply kn_R; [|exact Hk]; eauto using Rb_trans|unfold alike, t1; auto 15|apply (kn_ok _ _ Hk)]. }
  apply X_with_msg; auto.
  apply X_bind, X_update_task; [apply noerr_modi|errs_tac|].
  intros w2 u u' a HR2 HI2 E Hidu Ef. injection Ef as <-.
  split; [destruct (active _); reflexivity|]. split.
  { destruct (active (t_state u)); [|apply quiet_row_refl]. apply quiet_row_keep; cbn; auto; left; discriminate. }
  split; [destruct (active _); reflexivity|].
  intros w3 HR3. destruct (job_live (j_state j) && retry_left t1)%bool eqn:Er.
  - apply andb_true_iff in Er as [_ Er].
    apply X_bind, X_now. intros w4 n2 HR4. apply X_bind, X_new_id. intros w5 i HR5.
    destruct (evaluate_task O (retry_task t1 i n2) (j_context j)) as [rt|err] eqn:Ev; [|exact I].
    pose proof (kn_ok _ _ Hk1) as Hok1.
    assert (Hok2 : task_ok (retry_task t1 i n2)).
    { pose proof (clone_task_ok _ Hok1) as Hc. unfold retry_task.
      assert (Hr : t_retry (clone_task t1) = option_map clone_retry (t_retry t1)) by (clear; destruct t; reflexivity).
      destruct Hc as (C1&C2&C3&C4&C5). unfold task_ok; cbn -[clone_task]. ands; auto; try lia.
      unfold retry_left in Er. rewrite Hr in *. destruct (t_retry t1) as [r|]; cbn in *; [|discriminate].
      apply Z.ltb_lt in Er. lia. }
    assert (Hcnt : attempts_of (retry_task t1 i n2) = attempts_of t1 + 1 /\ count_of (retry_task t1 i n2) = count_of t1).
    { unfold retry_left in Er. clearbody t1. clear - Er. unfold retry_task. destruct t1; unfold attempts_of, count_of in *; cbn in *.
      destruct t_retry; [|discriminate]. cbn. split; [reflexivity|]. destruct t_parallel, t_each; reflexivity. }
    unfold evaluate_task in Ev. pose proof (eval_task_ok _ _ _ Ev Hok2) as Hok3.
    destruct (eval_counts _ _ _ Ev) as [V1 V2].
    pose proof (eval_task_core _ _ _ Ev) as Hc. unfold same_core in Hc.
    destruct Hc as (_&C2&C3&C4&C5&_).
    assert (Hcj : t_job (retry_task t1 i n2) = t_job t /\ t_parent (retry_task t1 i n2) = t_parent t /\
                  t_position (retry_task t1 i n2) = t_position t /\ t_state (retry_task t1 i n2) = TPending).
    { clear. unfold retry_task, t1. destruct t; cbn. auto. }
    destruct Hcj as (D1&D2&D3&D4). rewrite D1 in C2. rewrite D2 in C3. rewrite D3 in C4. rewrite D4 in C5.
    assert (Hge : 0 <= count_of t1) by (destruct Hk1 as (_ & x & _ & _ & _ & _ & Hx); exact (proj1 Hx)).
    apply X_bind, X_create_task; [errs_tac|lia| |].
    { intros w6 HR6 HI6. unfold quiet_new. rewrite attempts_db.
      split; [cbn; rewrite C5; discriminate|]. split; [cbn; rewrite C5; discriminate|]. right.
      assert (Hk6 : kn w6 t1) by (eapply kn_R; [|exact Hk1]; eauto using Rb_trans).
      destruct Hk6 as (_ & x & Ex & Ha & _ & Hat & _). pose proof (tfind_key _ _ _ _ Ex) as Hix.
      exists x. rewrite Hix. change (t_id t1) with (t_id t). split; [exact Ht|]. split; [exact Ex|].
      split; [change (attempts_of (db_task rt)) with (attempts_of rt); lia|].
      destruct Ha as (_&A2&A3&A4&_). cbn in A2, A3, A4. cbn. rewrite C2, C3, C4. auto. }
    intros w6 HR6 E6. apply X_catch; xpub; [errs_tac| |cbn; auto].
    intros w7 HR7. eapply kn_R; [exact HR7|]. apply kn_created; auto. lia.
  - match goal with |- W _ (job_handler O ?x) _ => change (job_handler O x) with (fail_job x) end. apply X_fail_job.
Qed.

Lemma X_started t w0 : kn w0 t -> W w0 (started_handler O t) (QT t).
Proof.
  intros Hk. unfold started_handler.
  apply X_bind, X_get_job; [errs_tac|]. intros w j HR Ej Hid Hjok.
  destruct (negb (job_live (j_state j))).
  - assert (Hk1 : kn w (t <| t_state := TCancelled |>)).
    { apply (kn_alike _ t); [eapply kn_R; eauto|unfold alike; auto 15|apply (kn_ok _ _ Hk)]. }
    apply X_with_msg; auto.
    apply X_bind, X_get_node; [errs_tac|]. intros w1 nd HR1 Hnq.
    xpub; [errs_tac| |cbn; auto]. intros w2 HR2. eapply kn_R; [|exact Hk1]; eauto using Rb_trans.
  - apply X_bind. match goal with |- W _ ?p _ => assert (Hp : W w p QN) end.
    { destruct (jstate_eqb (j_state j) JScheduled); [|exact I]. match goal with |- W _ (job_handler O ?x) _ => change (job_handler O x) with (mark_running x) end. apply X_mark_running. }
    eapply X_conseq; [exact Hp|]. intros w1 r HR1 Hr.
    destruct r as [a|e [m|]| |]; [|destruct Hr|exact I|exact I|exact I].
    apply X_bind, X_now. intros w2 n HR2. apply X_update_task; [apply noerr_modi|errs_tac|].
    intros w3 u u' a' HR3 HI3 E Hidu Ef. injection Ef as <-.
    split; [destruct (tstate_eqb _ _); reflexivity|]. split; [|split; [destruct (tstate_eqb _ _); reflexivity|intros; exact I]].
    destruct (tstate_eqb (t_state u) TScheduled); apply quiet_row_keep; cbn; auto; left; discriminate.
Qed.
Lemma X_progress t w0 : (exists t0, o = OMsg (MProgress t0)) -> kn w0 t -> W w0 (progress_handler t) (QT t).
Proof.
  intros Hop Hk. unfold progress_handler. apply X_with_msg; [reflexivity| |].
  { apply (kn_alike _ t); [exact Hk|unfold alike; auto 15|apply (kn_ok _ _ Hk)]. }
  apply X_bind, X_update_task; [apply noerr_modi|errs_tac|].
  intros w u u' a HR HI E Hidu Ef. injection Ef as <-.
  split; [reflexivity|]. split; [apply quiet_row_keep; cbn; auto|]. split; [reflexivity|].
  intros w1 HR1. apply X_bind, X_get_job; [errs_tac|]. intros w2 j HR2 _ _ _.
  destruct (j_taskcount j =? 0); [exact I|].
  apply X_update_job; [apply noerr_modi|errs_tac|]. intros w3 v v' a' HR3 HI3 Ev Hidv Ef. injection Ef as <-.
  split; [reflexivity|]. split; [apply quiet_job_keep; cbn; auto|]. intros; exact I.
Qed.
Lemma X_redelivered t w0 : kn w0 t -> (t_state t = TCompleted -> src D t \/ is_task_queue (t_queue t) = true) -> W w0 (redelivered_handler t) QN.
Proof.
  intros Hk Hsrc. unfold redelivered_handler. destruct (max_redeliveries <=? t_redelivered t) eqn:E.
  - apply X_bind, X_now. intros w n HR. xpub; [errs_tac| |cbn; auto].
    intros w1 HR1. apply (kn_alike _ t); [eapply kn_R; [|exact Hk]; eauto using Rb_trans|unfold alike; auto 15|apply (kn_ok _ _ Hk)].
  - apply X_publish; [|errs_tac| |cbn; auto].
    { split; [reflexivity|]. split; [exact Hsrc|]. cbn. intros Hq Hs. destruct (Hsrc Hs) as [H|H]; [exact H|]. rewrite Hq in H. discriminate. }
    intros w1 HR1. apply (kn_alike _ t); [eapply kn_R; [|exact Hk]; eauto using Rb_trans|unfold alike; auto 15|].
    apply Z.leb_gt in E. unfold max_redeliveries in E. destruct (kn_ok _ _ Hk) as (?&?&?&?&?). unfold task_ok; cbn. ands; auto; lia.
Qed.
Lemma X_heartbeat n w0 : W w0 (heartbeat_handler n) QN.
Proof.
  unfold heartbeat_handler. apply X_bind, X_calm.
  { intros w. unfold a_node_known. destruct (w_faults w) as [|[|] r]; repeat split. }
  intros w w' HR HR' HI H2 _ r E. assert (exists known, r = Ok known) as (known & ->).
  { unfold a_node_known in E. destruct (w_faults w) as [|[|] q1]; injection E as _ <-; eauto. }
  destruct known; (apply X_calm; [intros x; apply calm_faulty; intros y|]).
  - destruct (find_node _ _); repeat split.
  - intros x x' _ _ _ _ _ r E'. unfold a_update_node in E'.
    match type of E' with faulty ?g x = _ => destruct (faulty_cases g x) as (fs & [E1|E1]); rewrite E1 in E'; clear E1 end;
      [injection E' as _ <-; exact I|]. destruct (find_node _ _); injection E' as _ <-; exact I.
  - destruct (existsb _ _); repeat split.
  - intros x x' _ _ _ _ _ r E'. unfold a_create_node in E'.
    match type of E' with faulty ?g x = _ => destruct (faulty_cases g x) as (fs & [E1|E1]); rewrite E1 in E'; clear E1 end;
      [injection E' as _ <-; exact I|]. destruct (existsb _ _); injection E' as _ <-; exact I.
Qed.

Lemma X_task_wrapper h t w0 : task_of o = Some (t_id t) -> kn w0 t ->
  W w0 (h t) (QT t) -> W w0 (task_wrapper O h t) (fun _ _ => True).
Proof.
  intros Ht Hk H. unfold task_wrapper. apply X_catch. eapply X_conseq; [exact H|].
  intros w r HR Hr. destruct r as [a|e m| |]; [exact I| |exact I|exact I]. cbn in Hr.
  assert (Hx : exists t', (match m with Some t' => t' | None => t end) = t' /\ t_id t' = t_id t /\ kn w t').
  { destruct m as [t'|]; [exists t'; tauto|exists t; ands; auto; eapply kn_R; eauto]. }
  destruct Hx as (t' & -> & Hid & Hk').
  apply X_bind, X_now. intros w1 n HR1.
  eapply X_conseq; [apply X_error|auto]; [cbn; congruence|].
  apply (kn_alike _ t'); [eapply kn_R; eauto|unfold alike; auto 15|apply (kn_ok _ _ Hk')].
Qed.

Lemma X_deliver m w0 fuel : q = true -> o = OMsg m -> msg_ok w0 m -> match m with MTask _ t | MProgress t => kn w0 t | _ => True end -> wired D (w_hist w0) m ->
  W w0 (deliver O fuel m) (fun _ _ => True).
Proof.
  intros Hb Ho Hmsg Hkn Hwire.
  destruct m as [qu t|j|tp j|t|n]; cbn [deliver] in *.
  - assert (Ht : task_of o = Some (t_id t)) by (now rewrite Ho).
    destruct (String.eqb_spec qu QUEUE_PENDING) as [->|_].
    { apply X_task_wrapper; auto. apply X_pending; auto. left. split; auto. exists t. exact Ho. }
    destruct (String.eqb_spec qu QUEUE_COMPLETED) as [->|_].
    { apply X_task_wrapper; auto. apply X_completed; auto. }
    destruct (String.eqb_spec qu QUEUE_STARTED) as [->|_].
    { apply X_task_wrapper; auto. now apply X_started. }
    destruct (String.eqb_spec qu QUEUE_ERROR) as [->|_].
    { apply X_task_wrapper; auto. now apply X_error. }
    destruct (String.eqb_spec qu QUEUE_REDELIVERIES) as [->|_]; [|exact I].
    eapply X_conseq; [apply X_redelivered; [exact Hkn|apply Hwire]|auto].
  - destruct Hmsg as (_ & Hpr & Hst).
    unfold job_wrapper. apply X_catch.
    assert (Hh : W w0 (job_handler O j) (fun _ _ => True)).
    { unfold job_handler. destruct Hst as [Es|[Es|[Es Hpos]]]; rewrite Es.
      - now apply X_start_job.
      - eapply X_conseq; [now apply X_cancel_handler|auto].
      - eapply X_conseq; [now apply X_restart_job|auto]. }
    eapply X_conseq; [exact Hh|]. intros w r HR Hr. destruct r as [a|e m| |]; try exact I.
    apply X_bind, X_now. intros w1 n HR1.
    match goal with |- W _ (job_handler O ?x) _ => change (job_handler O x) with (fail_job x) end.
    eapply X_conseq; [apply X_fail_job|auto].
  - exact I.
  - assert (Ht : task_of o = Some (t_id t)) by (now rewrite Ho).
    apply X_task_wrapper; auto. apply X_progress; eauto.
  - eapply X_conseq; [now apply X_heartbeat|auto].
Qed.

Lemma X_api p w0 : api_prog o = Some p -> api_ok o -> W w0 p (fun _ _ => True).
Proof.
  intros E _. eapply X_conseq with (Q := QN); [|auto].
  destruct o as [m|d|i|i]; cbn [api_prog] in E; try discriminate; injection E as <-.
  - unfold api_submit. apply X_bind, X_new_id. intros w i HR. apply X_bind, X_now. intros w1 n HR1.
    apply X_bind, X_create_job; [errs_tac|reflexivity|reflexivity|].
    intros w2 HR2. xpub; [errs_tac|cbn; auto|cbn; auto].
  - unfold api_cancel. apply X_bind, X_get_job; [errs_tac|]. intros w j HR _ _ _.
    destruct (job_live (j_state j)); [|exact I]. xpub; [errs_tac|cbn; auto|cbn; auto].
  - unfold api_restart. apply X_bind, X_get_job; [errs_tac|]. intros w j HR _ _ _.
    destruct (j_state j); try exact I; (destruct (_ <? _); [exact I|]; xpub; [errs_tac|cbn; auto|cbn; auto]).
Qed.
End Walk.
