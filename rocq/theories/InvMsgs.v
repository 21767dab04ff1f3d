(** Completion, failure, start, progress, redelivery, heartbeat, wrappers, API: all preserve the invariant. *)
From Verif Require Export InvAll.
Open Scope string_scope.
Open Scope list_scope.
Open Scope Z_scope.

Section Msgs.
Variable O : oracle.
Variable o : origin.
Notation W := (wp Inv rely (guarantee o)).
Notation PN := (PN o).
Notation PT := (PT o).
Notation PJ := (PJ o).

Ltac errs_tac := let w := fresh "w" in let e := fresh "e" in intros w e ?; cbn; auto.

Lemma W_complete_top t w0 :
  from_queue QUEUE_COMPLETED o -> task_known w0 t -> t_job t = job_of o ->
  t_state t = TCompleted \/ t_state t = TSkipped -> W w0 (complete_top O t) PN.
Proof.
  intros Hq Hk Hj Hs. unfold complete_top. apply W_bind, W_with_tx; [exact Hq|errs_tac|].
  intros w HR HI. apply txok_complete_top; eauto using task_known_rely.
  intros b w1 j0 Ej0 Hpos w2 E1 E2 HR2.
  apply W_bind, W_get_job; [errs_tac|]. intros w3 j HR3 HI3 Ej Hid Hjok.
  assert (Hp : 1 <= j_position j).
  { assert (E0 : find_job (t_job t) w2 = Some j0) by (unfold find_job in *; now rewrite E2).
    destruct (rely_job _ _ _ _ HR3 E0) as (j' & Ej' & _ & Hp). assert (j' = j) by congruence. subst. auto. }
  apply W_bind, W_now. intros w4 n HR4.
  destruct (j_position j <=? Z.of_nat (length (j_tasks j))) eqn:El.
  - destruct (nth_task (j_tasks j) (j_position j - 1)) as [t0|] eqn:En.
    + apply W_bind, W_new_id. intros w5 i HR5 HI5 Hi _. apply W_next_task; auto; [|congruence].
      apply nth_task_some in En. destruct Hjok as (Hpr&_). rewrite Forall_forall in Hpr. auto.
    + apply nth_task_none in En. apply Z.leb_le in El. lia.
  - match goal with |- W _ (job_handler O ?x) _ => change (job_handler O x) with (complete_job O x) end. apply W_complete_job; auto; [cbn; congruence|].
    apply (job_known_def _ j); [|reflexivity]. eapply job_known_rely; [exact HR4|]. apply job_known_row. rewrite Hid. exact Ej.
Qed.

Definition PC (fuel : nat) (t : task) (w : world) (r : outcome unit) : Prop :=
  match r with OutOfFuel => (fuel <= N.to_nat (t_id t))%nat | r => PN w r end.

Lemma W_complete_task fuel : forall t w0,
  from_queue QUEUE_COMPLETED o -> task_known w0 t -> t_job t = job_of o ->
  t_state t = TCompleted \/ t_state t = TSkipped -> W w0 (complete_task O fuel t) (PC fuel t).
Proof.
  induction fuel as [|fuel IH]; intros t w0 Hq Hk Hj Hs; cbn [complete_task];
    (destruct (has_id (t_parent t)) eqn:Eh;
     [|eapply W_conseq; [now apply W_complete_top|]; intros w r; destruct r; cbn; auto; easy]).
  { cbn. lia. }
  assert (Hn : t_parent t <> noid) by (intros E; rewrite E in Eh; discriminate).
  apply W_bind, W_get_task; [errs_tac|]. intros w p HR HI Ep Hidp _.
  apply (task_known_rely _ _ _ HR) in Hk.
  destruct (known_parent _ _ HI Hk Hn) as (Hlt & p' & Ep' & Hjp & Hc). assert (p' = p) by congruence. subst p'.
  assert (Hrest : forall (last : bool) w1, rely w w1 -> W w1 (if last
      then let* parent' := get_task (t_parent t) in
           let* n := now in complete_task O fuel (parent' <| t_state := TCompleted |> <| t_completed := Some n |>)
      else ret tt) (PC (S fuel) t)).
  { intros last w1 HR1. destruct last; [|exact I].
    apply W_bind, W_get_task; [errs_tac|]. intros w2 q HR2 HI2 Eq Hidq Hokq.
    apply W_bind, W_now. intros w3 n HR3.
    destruct (rely_task _ _ _ _ (rely_trans _ _ _ HR1 HR2) Ep) as (q' & Eq' & Hdq). assert (q' = q) by congruence. subst q'.
    apply tdef_proj in Hdq as (_&Hjq&_).
    eapply W_conseq; [apply IH; auto|].
    - apply (task_known_fields _ q); try reflexivity. eapply task_known_rely; [exact HR3|].
      apply task_known_row. rewrite Hidq. exact Eq.
    - cbn. congruence.
    - intros w4 r. destruct r; cbn; auto. rewrite Hidq. lia. }
  apply W_bind. unfold composite in Hc.
  destruct (t_parallel p) as [pp|] eqn:Epp.
  - apply W_with_tx; [exact Hq|errs_tac|]. intros w1 HR1 HI1.
    pose proof (task_known_rely _ _ _ HR1 Hk) as Hk1.
    apply txok_complete_parallel; auto.
    { destruct (rely_task _ _ _ _ HR1 Ep) as (q & Eq & Hdq). apply tdef_proj in Hdq as (_&?&_&_&_&_&_&Hx&_).
      exists q. ands; auto; [congruence|]. now rewrite Hx, Epp. }
  - apply W_with_tx; [exact Hq|errs_tac|]. intros w1 HR1 HI1.
    pose proof (task_known_rely _ _ _ HR1 Hk) as Hk1.
    apply txok_complete_each; auto.
    { destruct (rely_task _ _ _ _ HR1 Ep) as (q & Eq & Hdq). apply tdef_proj in Hdq as (_&?&_&_&_&_&_&_&Hx&_).
      exists q. ands; auto; [congruence|]. now rewrite Hx. }
Qed.

Definition PF (fuel : nat) (t : task) (w : world) (r : outcome unit) : Prop :=
  match r with OutOfFuel => (fuel <= N.to_nat (t_id t))%nat | r => PT t w r end.

Lemma W_completed fuel t w0 :
  from_queue QUEUE_COMPLETED o -> task_ok t -> task_known w0 t -> t_job t = job_of o ->
  W w0 (completed_handler O fuel t) (PF fuel t).
Proof.
  intros Hq Hok Hk Hj. unfold completed_handler. apply W_bind, W_now. intros w n HR.
  assert (H : t_state t = TCompleted \/ t_state t = TSkipped ->
    W w (with_msg (t <| t_completed := Some n |>) (complete_task O fuel (t <| t_completed := Some n |>))) (PF fuel t)).
  { intros Hs. apply (task_known_rely _ _ _ HR) in Hk. unfold with_msg. apply W_catch. eapply W_conseq_rely.
    - apply W_complete_task; auto. 
    - intros w1 r HR1 Hr. destruct r as [a|e [m|]| |]; cbn in *; auto; try easy.
      split; [reflexivity|]. split; [exact Hok|].
      apply (task_known_fields _ t); try reflexivity. eauto using task_known_rely. }
  destruct (t_state t); try exact I; apply H; auto.
Qed.

Lemma W_error t w0 :
  is_msg o -> task_of o = Some (t_id t) -> task_ok t -> task_known w0 t -> t_job t = job_of o ->
  W w0 (error_handler O t) (PT t).
Proof.
  intros Hm Ht Hok Hk Hj. unfold error_handler.
  apply W_bind, W_get_job; [errs_tac|]. intros w j HR HI Ej Hid Hjok.
  apply W_bind, W_now. intros w1 n HR1.
  apply (task_known_rely w0 w1) in Hk; [|eauto using rely_trans].
  set (t1 := t <| t_failed := Some n |>).
  assert (Hk1 : task_known w1 t1) by (apply (task_known_fields _ t); auto).
  assert (Hok1 : task_ok t1) by exact Hok.
  apply W_with_msg; auto.
  apply W_bind, W_update_task; [errs_tac|].
  intros w2 u HR2 HI2 E Hidu Hu. cbn [modi].
  pose proof (known_job _ _ _ (task_known_rely _ _ _ HR2 Hk1) E) as Hju. cbn in Hju.
  assert (Hpost : forall w3, rely w1 w3 -> W w3 (if (job_live (j_state j) && retry_left t1)%bool
      then
       let* n2 := now in
       let* i := new_id in
       match evaluate_task O (retry_task t1 i n2) (j_context j) with
       | inl rt => create_task rt;;; catch (publish_task QUEUE_PENDING rt) (fun _ _ => ret tt)
       | inr e => fail e
       end
      else job_handler O (j <| j_state := JFailed |> <| j_failed := t_failed t1 |> <| j_error := t_error t1 |>)) PN).
  { clear w2 u HR2 HI2 E Hidu Hu Hju. intros w3 HR3.
    destruct (job_live (j_state j) && retry_left t1)%bool eqn:Er.
    - apply andb_true_iff in Er as [_ Er].
      apply W_bind, W_now. intros w4 n2 HR4. apply W_bind, W_new_id. intros w5 i HR5 HI5 Hi Hlt.
      assert (Hk4 : task_known w4 t1) by (eapply task_known_rely; [|exact Hk1]; eauto using rely_trans).
      specialize (Hlt _ Hk4).
      destruct (evaluate_task O (retry_task t1 i n2) (j_context j)) as [rt|err] eqn:Ev; [|exact I].
      assert (Hok2 : task_ok (retry_task t1 i n2)).
      { pose proof (clone_task_ok _ Hok1) as Hc. unfold retry_task.
        assert (Hr : t_retry (clone_task t1) = option_map clone_retry (t_retry t1)) by (clear; destruct t; reflexivity).
        destruct Hc as (C1&C2&C3&C4&C5). unfold task_ok; cbn -[clone_task]. ands; auto; try lia.
        unfold retry_left in Er. rewrite Hr in *. destruct (t_retry t1) as [r|]; cbn in *; [|discriminate].
        apply Z.ltb_lt in Er. lia. }
      unfold evaluate_task in Ev. pose proof (eval_task_ok _ _ _ Ev Hok2) as Hok3.
      pose proof (eval_task_core _ _ _ Ev) as Hc. unfold same_core in Hc.
      destruct Hc as (C1&C2&C3&C4&C5&_).
      assert (Hcj : t_job (retry_task t1 i n2) = t_job t /\ t_parent (retry_task t1 i n2) = t_parent t /\
                    t_id (retry_task t1 i n2) = i /\ t_state (retry_task t1 i n2) = TPending).
      { clear. unfold retry_task, t1. destruct t; cbn. auto. }
      destruct Hcj as (D1&D2&D3&D4). rewrite D1 in C2. rewrite D2 in C3. rewrite D3 in C1. rewrite D4 in C5.
      apply W_bind, W_create_task; [errs_tac|rewrite C1; lia|now apply task_ok_db| | |].
      { unfold task_new; cbn. ands; auto. congruence. }
      { apply (known_parent_known _ t1); [exact HI5|eauto using task_known_rely|exact C3|exact C2|rewrite C1; exact Hlt]. }
      intros w6 HR6 E6. apply W_catch, W_publish; [errs_tac| |cbn; auto].
      intros w7 HR7 HI7. cbn. split; [exact Hok3|]. eapply task_known_rely; [exact HR7|]. now apply task_known_created.
    - match goal with |- W _ (job_handler O ?x) _ => change (job_handler O x) with (fail_job x) end. apply W_fail_job; auto; [cbn; congruence|].
      apply (job_known_def _ j); [|reflexivity]. eapply job_known_rely; [|apply job_known_row; rewrite Hid; exact Ej].
      eauto using rely_trans. }
  destruct (active (t_state u)) eqn:Ea.
  - ands; auto. unfold task_step; cbn. ands; auto; try congruence.
    right. apply te_fail; auto. rewrite Hidu. exact Ht.
  - ands; auto. apply task_step_refl.
Qed.

Lemma W_started t w0 :
  from_queue QUEUE_STARTED o -> task_of o = Some (t_id t) -> task_ok t -> task_known w0 t -> t_job t = job_of o ->
  W w0 (started_handler O t) (PT t).
Proof.
  intros Hq Ht Hok Hk Hj. unfold started_handler.
  apply W_bind, W_get_job; [errs_tac|]. intros w j HR HI Ej Hid Hjok.
  apply (task_known_rely _ _ _ HR) in Hk.
  destruct (negb (job_live (j_state j))).
  - apply W_with_msg; auto.
    apply W_bind, W_get_node; [errs_tac|]. intros w1 nd HR1 HI1 _.
    apply W_publish; [errs_tac| |cbn; auto].
    intros w2 HR2 HI2. apply (msg_task_ok _ t); auto. eauto using task_known_rely, rely_trans.
  - apply W_bind. match goal with |- W _ ?p _ => assert (Hp : W w p PN) end.
    { destruct (jstate_eqb (j_state j) JScheduled); [|exact I]. match goal with |- W _ (job_handler O ?x) _ => change (job_handler O x) with (mark_running x) end. apply W_mark_running; auto. cbn; congruence. }
    eapply W_conseq_rely; [exact Hp|]. intros w1 r HR1 Hr.
    destruct r as [a|e [m|]| |]; [|destruct Hr|exact I|exact Hr|exact Hr].
    apply (task_known_rely _ _ _ HR1) in Hk.
    apply W_bind, W_now. intros w2 n HR2. apply W_update_task; [errs_tac|].
    intros w3 u HR3 HI3 E Hidu Hu. cbn [modi].
    pose proof (known_job _ _ _ (task_known_rely _ _ _ (rely_trans _ _ _ HR2 HR3) Hk) E) as Hju.
    destruct (tstate_eqb (t_state u) TScheduled) eqn:Es; ands; auto; try (intros; exact I).
    + assert (Hsu : t_state u = TScheduled) by (destruct (t_state u); easy).
      unfold task_step; cbn. rewrite Hsu. ands; auto; try congruence.
      right. apply te_start; auto. congruence.
    + unfold task_step; cbn. ands; auto; congruence.
Qed.

Lemma W_progress t w0 :
  task_ok t -> task_known w0 t -> t_job t = job_of o -> W w0 (progress_handler t) (PT t).
Proof.
  intros Hok Hk Hj. unfold progress_handler. apply W_with_msg; auto.
  apply W_bind, W_update_task; [errs_tac|].
  intros w u HR HI E Hidu Hu. cbn [modi].
  pose proof (known_job _ _ _ (task_known_rely _ _ _ HR Hk) E) as Hju.
  ands; auto.
  - unfold task_step; cbn. ands; auto; congruence.
  - intros w1 HR1 _. apply W_bind, W_get_job; [errs_tac|]. intros w2 j HR2 HI2 _ _ _.
    destruct (j_taskcount j =? 0); [exact I|].
    apply W_update_job; [errs_tac|]. intros w3 v HR3 HI3 Ev Hidv Hv. cbn [modi]. cbn in Hidv.
    ands; auto; try (intros; exact I). unfold job_step; cbn. ands; auto; congruence.
Qed.

Lemma W_redelivered t w0 : task_ok t -> task_known w0 t -> W w0 (redelivered_handler t) PN.
Proof.
  intros Hok Hk. unfold redelivered_handler. destruct (max_redeliveries <=? t_redelivered t) eqn:E.
  - apply W_bind, W_now. intros w n HR. apply W_publish; [errs_tac| |cbn; auto].
    intros w1 HR1 HI1. apply (msg_task_ok _ t); auto. eauto using task_known_rely, rely_trans.
  - apply W_publish; [errs_tac| |cbn; auto].
    intros w1 HR1 HI1. apply (msg_task_ok _ t); auto; [|eauto using task_known_rely].
    apply Z.leb_gt in E. unfold max_redeliveries in E. destruct Hok as (?&?&?&?&?). unfold task_ok; cbn. ands; auto; lia.
Qed.

Lemma good_nodes w f :
  Inv w -> (forall n, In n f -> In n (w_nodes w) \/ String.prefix QUEUE_EXCLUSIVE_PREFIX (n_queue n) = true) ->
  Inv (w <| w_nodes := f |>) /\ rely w (w <| w_nodes := f |>) /\ guarantee o w (w <| w_nodes := f |>).
Proof.
  intros HI Hn. assert (HR : rely w (w <| w_nodes := f |>)) by (apply rely_same; cbn; auto; lia).
  ands; auto; [|now apply guarantee_same].
  eapply inv_update; [exact HI|exact HR|..]; cbn; auto; apply HI.
Qed.

Lemma W_heartbeat n w0 :
  String.prefix QUEUE_EXCLUSIVE_PREFIX (n_queue n) = true -> W w0 (heartbeat_handler n) PN.
Proof.
  intros Hpre. unfold heartbeat_handler. apply W_bind, W_op. intros w HR HI.
  unfold a_node_known.
  assert (Hrest : forall (known : bool) w', W w' (if known then op (a_update_node (n_id n) (heartbeat_modify n)) else op (a_create_node n)) PN).
  { clear w HR HI. intros known w'. destruct known; apply W_op; intros w HR HI.
    - unfold a_update_node. apply good_faulty; [exact HI|intros; exact I|]. intros fs HI'.
      set (w1 := w <| w_faults := fs |>) in *.
      destruct (find_node (n_id n) w1) as [u|] eqn:E; [|apply good_same; auto; cbn; auto; lia].
      unfold good; cbn [fst snd]. destruct (good_nodes w1 (put_node (heartbeat_modify n u) (w_nodes w1))) as (?&?&?); auto.
      + intros x Hin. unfold put_node in Hin. apply in_map_iff in Hin as (y & Ey & Hy).
        destruct (N.eqb (n_id y) _); subst; auto. right.
        apply find_some in E as [E _]. apply (inv_nodes _ HI') in E. unfold heartbeat_modify. destruct (_ <? _); auto.
      + ands; auto. exact I.
    - unfold a_create_node. apply good_faulty; [exact HI|intros; exact I|]. intros fs HI'.
      set (w1 := w <| w_faults := fs |>) in *.
      destruct (existsb _ (w_nodes w1)); [apply good_same; auto; cbn; auto; lia|].
      unfold good; cbn [fst snd]. destruct (good_nodes w1 (w_nodes w1 ++ [n])) as (?&?&?); auto.
      + intros x Hin. apply in_app_or in Hin as [?|[<-|[]]]; auto.
      + ands; auto. exact I. }
  destruct (w_faults w) as [|[] r]; apply good_same; try exact HI; try reflexivity; try apply Hrest; try apply (Hrest true).
Qed.

(** Outcomes of a whole thread. *)
Definition outcome_ok (r : outcome unit) : Prop :=
  match r with Panic => panic_site o | OutOfFuel => False | _ => True end.

Lemma W_task_wrapper h t w0 fuel :
  is_msg o -> task_of o = Some (t_id t) -> task_ok t -> task_known w0 t -> t_job t = job_of o ->
  (N.to_nat (t_id t) < fuel)%nat -> 
  W w0 (h t) (PF fuel t) -> W w0 (task_wrapper O h t) (fun _ => outcome_ok).
Proof.
  intros Hm Ht Hok Hk Hj Hf H. unfold task_wrapper. apply W_catch. eapply W_conseq_rely; [exact H|].
  intros w r HR Hr. destruct r as [a|e m| |]; [exact I| |exact Hr|cbn in Hr |- *; lia]. cbn in Hr.
  apply (task_known_rely _ _ _ HR) in Hk.
  assert (Hx : exists t', (match m with Some t' => t' | None => t end) = t' /\ t_id t' = t_id t /\ task_ok t' /\ task_known w t').
  { destruct m as [t'|]; [exists t'|exists t]; tauto. }
  destruct Hx as (t' & -> & Hid & Hok' & Hk').
  assert (Hj' : t_job t' = t_job t).
  { destruct Hk as (u & E & Ha), Hk' as (u' & E' & Ha'). rewrite Hid, E in E'. injection E' as <-.
    destruct Ha as (_&?&_), Ha' as (_&?&_). congruence. }
  apply W_bind, W_now. intros w1 n HR1.
  eapply W_conseq; [apply W_error|]; cbn; auto; try congruence.
  - apply (task_known_fields _ t'); try reflexivity. eauto using task_known_rely.
  - intros w2 r Hr2. destruct r; cbn in *; auto.
Qed.
Lemma PT_PF fuel t w (r : outcome unit) : PT t w r -> PF fuel t w r.
Proof. destruct r; cbn; auto. easy. Qed.

Lemma W_deliver m w0 fuel :
  o = OMsg m -> msg_ok w0 m -> (forall t, task_known w0 t -> (N.to_nat (t_id t) < fuel)%nat) ->
  W w0 (deliver O fuel m) (fun _ => outcome_ok).
Proof.
  intros Ho Hmsg Hf. assert (Hm : is_msg o) by (eexists; eauto).
  destruct m as [q t|j|tp j|t|n]; cbn [deliver msg_ok] in *.
  - destruct Hmsg as [Hok Hk]. assert (Ht : task_of o = Some (t_id t)) by (now subst).
    assert (Hj : t_job t = job_of o) by (now subst). specialize (Hf t Hk).
    destruct (String.eqb_spec q QUEUE_PENDING) as [->|_].
    { eapply W_task_wrapper; eauto. eapply W_conseq; [apply W_pending; auto|intros; now apply PT_PF].
      left. split; auto. exists t. exact Ho. }
    destruct (String.eqb_spec q QUEUE_COMPLETED) as [->|_].
    { eapply W_task_wrapper; eauto. apply W_completed; auto. exists t; exact Ho. }
    destruct (String.eqb_spec q QUEUE_STARTED) as [->|_].
    { eapply W_task_wrapper; eauto. eapply W_conseq; [apply W_started; auto|intros; now apply PT_PF]. exists t; exact Ho. }
    destruct (String.eqb_spec q QUEUE_ERROR) as [->|_].
    { eapply W_task_wrapper; eauto. eapply W_conseq; [apply W_error; auto|intros; now apply PT_PF]. }
    destruct (String.eqb_spec q QUEUE_REDELIVERIES) as [->|_]; [|exact I].
    eapply W_conseq; [now apply W_redelivered|]. intros w r. destruct r as [|e [|]| |]; cbn; auto.
  - destruct Hmsg as (Hk & Hpr & Hst). assert (Hj : j_id j = job_of o) by (now subst).
    unfold job_wrapper. apply W_catch.
    assert (Hh : W w0 (job_handler O j) PJ).
    { unfold job_handler. destruct Hst as [Es|[Es|[Es Hpos]]]; rewrite Es.
      - now apply W_start_job.
      - eapply W_conseq; [now apply W_cancel_handler|]. intros; now apply PN_PJ.
      - eapply W_conseq; [now apply W_restart_job|]. intros; now apply PN_PJ. }
    eapply W_conseq_rely; [exact Hh|]. intros w r HR Hr. destruct r as [a|e m| |]; [exact I| |exact Hr|exact Hr].
    apply W_bind, W_now. intros w1 n HR1.
    match goal with |- W _ (job_handler O ?x) _ => change (job_handler O x) with (fail_job x) end.
    eapply W_conseq; [apply W_fail_job; auto|].
    + apply (job_known_def _ j); [|reflexivity]. eapply job_known_rely; [|exact Hk]. eauto using rely_trans.
    + intros w2 r Hr2. destruct r as [|? [|]| |]; cbn in *; auto.
  - exact I.
  - destruct Hmsg as [Hok Hk]. assert (Ht : task_of o = Some (t_id t)) by (now subst).
    assert (Hj : t_job t = job_of o) by (now subst). specialize (Hf t Hk).
    eapply W_task_wrapper; eauto. eapply W_conseq; [apply W_progress; auto|intros; now apply PT_PF].
  - eapply W_conseq; [now apply W_heartbeat|]. intros w r. destruct r as [|e [|]| |]; cbn; auto.
Qed.

Lemma W_api p w0 : api_prog o = Some p -> api_ok o -> W w0 p (fun _ => outcome_ok).
Proof.
  assert (Hgen : W w0 p PN -> W w0 p (fun _ => outcome_ok)).
  { intros H. eapply W_conseq; [exact H|]. intros w r. destruct r as [|e [|]| |]; cbn; auto. }
  destruct o as [m|d|i|i] eqn:Ho; cbn [api_prog api_ok]; intros E Hok; try discriminate; injection E as <-; apply Hgen; clear Hgen; rewrite <- Ho.
  - destruct Hok as (Hne & Hpr & Hd). unfold api_submit.
    apply W_bind, W_new_id. intros w i HR HI Hi _. apply W_bind, W_now. intros w1 n HR1.
    assert (Hf : (w_fresh w <= w_fresh w1)%N) by apply HR1.
    apply W_bind, W_create_job; [errs_tac|cbn; lia| |unfold job_new; cbn; auto 10| |].
    + unfold job_ok, new_job; cbn. ands; auto; try easy; lia.
    + intros H. now destruct H.
    + intros w2 HR2 E2. apply W_publish; [errs_tac| |cbn; auto].
      intros w3 HR3 HI3. cbn. ands; auto. eapply job_known_rely; [exact HR3|]. now apply job_known_row.
  - unfold api_cancel. apply W_bind, W_get_job; [errs_tac|]. intros w j HR HI Ej Hid Hjok.
    destruct (job_live (j_state j)); [|exact I]. apply W_publish; [errs_tac| |cbn; auto].
    intros w1 HR1 HI1. cbn. ands; auto; [|apply Hjok].
    apply (job_known_def _ j); [|reflexivity]. eapply job_known_rely; [exact HR1|apply job_known_row; rewrite Hid; exact Ej].
  - unfold api_restart. apply W_bind, W_get_job; [errs_tac|]. intros w j HR HI Ej Hid Hjok.
    assert (H : j_state j <> JPending -> W w (if Z.of_nat (length (j_tasks j)) <? j_position j then fail "job has no more tasks to run"
      else publish_job (j <| j_state := JRestart |>)) PN).
    { intros Hnp. destruct (_ <? _) eqn:El; [exact I|]. apply W_publish; [errs_tac| |cbn; auto].
      intros w1 HR1 HI1. cbn. apply Z.ltb_ge in El. destruct Hjok as (Hpr&_&_&_&Hp&_). ands; auto; [|].
      - apply (job_known_def _ j); [|reflexivity]. eapply job_known_rely; [exact HR1|apply job_known_row; rewrite Hid; exact Ej].
      - right; right. split; auto. }
    destruct (j_state j); try exact I; apply H; discriminate.
Qed.
End Msgs.

(* ------------------------------------------------------------------ *)
(** * All executions *)

Lemma inv_empty clk fs : Inv (empty_world clk fs).
Proof. constructor; cbn; try easy; try constructor. Qed.

Lemma env_msg_ok w m : Inv w -> env_msg (w_hist w) m -> msg_ok w m.
Proof.
  intros HI H.
  assert (Hrep : forall q t t', In (MTask q t) (w_hist w) -> worker_report t t' -> task_ok t' /\ task_known w t').
  { intros q t t' Hin (R1&R2&R3&R4&R5&R6&R7&R8&R9&R10&R11&R12). apply (inv_hist _ HI) in Hin as [Hok Hk].
    split; [|apply (task_known_fields _ t); auto; congruence].
    destruct Hok as (?&?&?&?&?). unfold task_ok. rewrite R8, R9, R10, R11. ands; auto; destruct R12; lia. }
  inversion H; subst; cbn; eauto. eapply (inv_hist _ HI) in H0. exact H0.
Qed.

Lemma inv_emit w m : Inv w -> msg_ok w m -> Inv (w <| w_hist := w_hist w ++ [m] |>) /\ rely w (w <| w_hist := w_hist w ++ [m] |>).
Proof.
  intros HI Hm. assert (HR : rely w (w <| w_hist := w_hist w ++ [m] |>)) by (apply rely_same; cbn; auto; lia).
  split; [|exact HR]. eapply inv_update; [exact HI|exact HR|..]; cbn; auto; try apply HI.
  intros x Hin. apply in_app_or in Hin as [?|[<-|[]]]; auto.
Qed.

Section All.
Variable O : oracle.

Definition cfg_ok := config_ok Inv rely guarantee outcome_ok.

Lemma lift_step c l c' : cfg_ok c -> step O c l c' -> cfg_ok c' /\ rely (cw c) (cw c').
Proof.
  apply (step_config_ok O Inv rely guarantee outcome_ok rely_refl rely_trans).
  - intros w m HI Hin. apply W_deliver; auto.
    + now apply (inv_hist _ HI).
    + intros t (u & E & _). rewrite <- (tfind_key _ _ _ _ E). apply tfind_in in E. apply (inv_task_fresh _ HI) in E. lia.
  - intros. now apply W_api.
  - intros w c0 fs HI. split; [eapply inv_same; eauto; cbn; lia|apply rely_same; cbn; auto; lia].
  - intros w m HI Hm. apply inv_emit; auto. now apply env_msg_ok.
Qed.
Lemma lift_exec c ls c' : cfg_ok c -> exec O c ls c' -> cfg_ok c' /\ rely (cw c) (cw c').
Proof.
  intros H E. induction E as [|c1 ls c2 l c3 E IH S]; [auto using rely_refl|]. destruct (IH H) as [H2 HR].
  destruct (lift_step _ _ _ H2 S). eauto using rely_trans.
Qed.
Lemma cfg_initial c : initial c -> cfg_ok c.
Proof. intros (clk & fs & ->). split; [apply inv_empty|constructor]. Qed.
Lemma cfg_reachable c : reachable O c -> cfg_ok c.
Proof. intros (c0 & ls & Hi & E). eapply lift_exec; [|exact E]. now apply cfg_initial. Qed.
Lemma reachable_step c l c' : reachable O c -> step O c l c' -> reachable O c'.
Proof. intros (c0 & ls & Hi & E) S. exists c0, (ls ++ [l]). split; [exact Hi|]. econstructor; eauto. Qed.
Lemma reachable_exec c ls c' : reachable O c -> exec O c ls c' -> reachable O c'.
Proof. intros H E. induction E; eauto using reachable_step. Qed.

Lemma reachable_inv c : reachable O c -> Inv (cw c).
Proof. intros H. now apply cfg_reachable in H as [? _]. Qed.

(** Every step of every execution obeys the state machines; steps that are not operations leave the tables alone. *)
Definition label_guar (l : label) (w w' : world) : Prop :=
  match l with
  | LOp o => guarantee o w w'
  | _ => w_tasks w' = w_tasks w /\ w_jobs w' = w_jobs w
  end.
Lemma reachable_guar c l c' : reachable O c -> step O c l c' -> label_guar l (cw c) (cw c').
Proof.
  intros H S. pose proof (cfg_reachable _ H) as Hc. destruct l; try (inversion S; subst; cbn; auto; fail).
  eapply (op_guarantee O Inv rely guarantee outcome_ok); eauto using rely_refl.
Qed.
Lemma reachable_outcome c o r : reachable O c -> In (o, Done r) (cthreads c) -> outcome_ok o r.
Proof. intros H Hin. pose proof (cfg_reachable _ H) as Hc. eapply done_outcome; eauto. Qed.
End All.
