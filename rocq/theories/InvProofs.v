(** Every handler preserves the invariant and respects the state machines. *)
From Verif Require Export InvRules.
Open Scope string_scope.
Open Scope list_scope.
Open Scope Z_scope.

(** The two places a coordinator can panic (see C57). *)
Definition panic_site (o : origin) : Prop :=
  (exists j, o = OMsg (MJob j) /\ j_state j = JPending /\ j_tasks j = []) \/
  (exists j, o = OMsg (MJob j) /\ j_state j = JCancelled /\ j_parent j <> noid).

Section Handlers.
Variable O : oracle.
Variable o : origin.
Notation W := (wp Inv rely (guarantee o)).

(** Outcomes of sub-programs that do not touch the message task, and of task handlers for [t]. *)
Definition PN {A} (w : world) (r : outcome A) : Prop :=
  match r with Err _ (Some _) => False | Panic => panic_site o | OutOfFuel => False | _ => True end.
Definition PT {A} (t : task) (w : world) (r : outcome A) : Prop :=
  match r with
  | Err _ (Some t') => t_id t' = t_id t /\ task_ok t' /\ task_known w t'
  | Panic => panic_site o
  | OutOfFuel => False
  | _ => True end.

Lemma PN_PT {A} t w (r : outcome A) : PN w r -> PT t w r.
Proof. destruct r as [|e [m|]| |]; cbn; auto; easy. Qed.

Ltac errs_tac := let w := fresh "w" in let e := fresh "e" in intros w e ?; cbn; auto.

Lemma W_with_msg {A} t t' (p : prog A) w0 :
  t_id t' = t_id t -> task_ok t' -> task_known w0 t' ->
  W w0 p PN -> W w0 (with_msg t' p) (PT t).
Proof.
  intros Hid Hok Hk H. unfold with_msg. apply W_catch. eapply W_conseq_rely; [exact H|].
  intros w r HR Hr. destruct r as [a|e [m|]| |]; cbn in *; auto; try easy.
  split; [assumption|]. split; [assumption|]. eapply task_known_rely; eauto.
Qed.

(* -------------------------------------------------------------- *)
(** ** Facts about updates *)

Lemma task_ok_db t : task_ok t -> task_ok (db_task t).
Proof. intros (A & B & C & D & E). unfold task_ok; cbn. ands; auto; lia. Qed.

Lemma about_fields t t' u : about t u ->
  t_id t' = t_id t -> t_job t' = t_job t -> t_parent t' = t_parent t -> t_position t' = t_position t ->
  is_some (t_parallel t') = is_some (t_parallel t) -> is_some (t_each t') = is_some (t_each t) ->
  is_some (t_subjob t') = is_some (t_subjob t) -> about t' u.
Proof. unfold about. intuition congruence. Qed.
Lemma task_known_fields w t t' : task_known w t ->
  t_id t' = t_id t -> t_job t' = t_job t -> t_parent t' = t_parent t -> t_position t' = t_position t ->
  is_some (t_parallel t') = is_some (t_parallel t) -> is_some (t_each t') = is_some (t_each t) ->
  is_some (t_subjob t') = is_some (t_subjob t) -> task_known w t'.
Proof.
  intros (u & E & H) Hi ? ? ? ? ? ?. exists u. rewrite Hi. split; auto. eapply about_fields; eauto.
Qed.
Lemma task_known_row w t : find_task (t_id t) w = Some t -> task_known w t.
Proof. intros E. exists t. unfold about. auto 10. Qed.
Lemma task_known_created w t : find_task (t_id t) w = Some (db_task t) -> task_known w t.
Proof. intros E. exists (db_task t). unfold about; cbn. auto 10. Qed.
Lemma job_known_row w j : find_job (j_id j) w = Some j -> job_known w j.
Proof. intros E. exists j. auto. Qed.
Lemma job_known_def w j j' : job_known w j -> jdef j' = jdef j -> job_known w j'.
Proof.
  intros (u & E & H) Hd. exists u. rewrite Hd. split; [|assumption].
  apply jdef_proj in Hd as [-> _]. assumption.
Qed.
Lemma task_known_id w t u : task_known w t -> find_task (t_id t) w = Some u -> about t u.
Proof. intros (u' & E & H) E'. congruence. Qed.

(* -------------------------------------------------------------- *)
(** ** Cancelling active tasks *)

Lemma step_cancel u : is_msg o -> t_job u = job_of o -> task_step o u (u <| t_state := TCancelled |>).
Proof.
  intros Hm Hj. unfold task_step; cbn. ands; auto; try congruence.
  right. now apply te_cancel.
Qed.

Lemma W_cancel_tasks l w0 :
  is_msg o ->
  Forall (fun t => task_known w0 t /\ task_ok t /\ t_job t = job_of o) l ->
  W w0 (cancel_tasks l) PN.
Proof.
  intros Hm. revert w0. induction l as [|t l IH]; intros w0 Hl; cbn [cancel_tasks]; [exact I|].
  inversion Hl as [|? ? (Hk & Hok & Hj) Hl']; subst.
  assert (Hrest : forall w, rely w0 w -> W w (cancel_tasks l) PN).
  { intros w HR. apply IH. eapply Forall_impl; [|exact Hl']. cbn. intros a (?&?&?). eauto using task_known_rely. }
  apply W_bind, W_update_task; [errs_tac|].
  intros w u HR HI E Hid Hu. cbn [modi].
  pose proof (task_known_id _ _ _ (task_known_rely _ _ _ HR Hk) E) as Ha.
  assert (Hju : t_job u = job_of o) by (unfold about in Ha; intuition congruence).
  ands; [reflexivity|exact Hu|now apply step_cancel|].
  intros w1 HR1 _. clear w u HR HI E Hid Hu Ha Hju.
  apply W_bind.
  match goal with |- W _ ?p _ => assert (Hp : W w1 p PN) end.
  2:{ eapply W_conseq_rely; [exact Hp|]. intros w2 r HR2 Hr. destruct r; auto. apply Hrest. eapply rely_trans; eauto. }
  assert (Hnode : W w1 (if has_id (t_node t) then
             let* n := get_node (t_node t) in publish_task (n_queue n) (t <| t_state := TCancelled |>)
           else ret tt) PN).
  { destruct (has_id (t_node t)); [|exact I].
    apply W_bind, W_get_node; [errs_tac|]. intros w n HR HI Hq.
    apply W_publish; [errs_tac| |cbn; auto].
    intros w' HR' HI'. cbn. split; [exact Hok|].
    eapply task_known_fields; [eapply task_known_rely; [|exact Hk]| | | | | | |]; try reflexivity.
    eauto using rely_trans. }
  destruct (t_subjob t) as [s|]; [|exact Hnode].
  destruct (has_id (s_id s)); [|exact Hnode].
  apply W_bind, W_get_job; [errs_tac|]. intros w j HR HI E Hid Hjok.
  apply W_publish; [errs_tac| |cbn; auto].
  intros w' HR' HI'. cbn. ands; auto; [|apply Hjok].
  apply (job_known_def _ j); [eapply job_known_rely; [exact HR'|]; apply job_known_row; rewrite Hid; exact E|reflexivity].
Qed.

Lemma W_cancel_active w0 : is_msg o -> W w0 (cancel_active_tasks (job_of o)) PN.
Proof.
  intros Hm. unfold cancel_active_tasks. apply W_bind, W_get_active; [errs_tac|].
  intros w l HR HI Hl. apply W_cancel_tasks; [exact Hm|].
  eapply Forall_impl; [|exact Hl]. cbn. intros t (E & Hj & _). ands; auto using task_known_row.
  apply tfind_in in E. now apply (inv_tasks _ HI) in E.
Qed.

(* -------------------------------------------------------------- *)
(** ** Job operations *)

Lemma live_spec s : job_live s = true <-> live s.
Proof. destruct s; unfold live; cbn; intuition congruence. Qed.
Lemma live_pos j : job_ok j -> job_live (j_state j) = true -> 1 <= j_position j.
Proof. intros (_ & _ & _ & _ & H & _) Hl. apply H. destruct (j_state j); easy. Qed.

Lemma W_fail_job j w0 :
  is_msg o -> j_id j = job_of o -> job_known w0 j -> W w0 (fail_job j) PN.
Proof.
  intros Hm Hj Hk. unfold fail_job. apply W_bind, W_update_job; [errs_tac|].
  intros w u HR HI E Hid Hu. cbn [modi].
  assert (Hpost : forall w', rely w0 w' ->
     W w' (if has_id (j_parent j)
     then let* pt := get_task (j_parent j) in
        publish_task QUEUE_ERROR (pt <| t_state := TFailed |> <| t_failed := j_failed j |> <| t_error := j_error j |>)
     else
      cancel_active_tasks (j_id j);;;
      (let* j' := get_job (j_id j) in
       if jstate_eqb (j_state j') JFailed then publish_event TOPIC_JOB_FAILED j' else ret tt)) PN).
  { clear w u HR HI E Hid Hu. intros w HR. destruct (has_id (j_parent j)) eqn:Eh.
    - apply W_bind, W_get_task; [errs_tac|]. intros w1 t HR1 HI1 E Hid Hok.
      apply W_publish; [errs_tac| |cbn; auto]. intros w2 HR2 HI2. cbn. split; [exact Hok|].
      apply (task_known_fields _ t); [eapply task_known_rely; [exact HR2|apply task_known_row; rewrite Hid; exact E]| | | | | | |]; reflexivity.
    - rewrite Hj. apply W_bind. eapply W_conseq_rely; [apply W_cancel_active; exact Hm|].
      intros w1 r HR1 Hr. destruct r; auto. apply W_bind, W_get_job; [errs_tac|].
      intros w2 j' HR2 HI2 E2 Hid2 _. destruct (jstate_eqb (j_state j') JFailed) eqn:Es; [|exact I].
      apply W_publish; [errs_tac| |cbn; auto]. intros w3 HR3 HI3.
      assert (Hk' : job_known w3 j') by (eapply job_known_rely; [exact HR3|]; apply job_known_row; congruence).
      assert (Hk3 : job_known w3 j) by (eapply job_known_rely; [|exact Hk]; eauto using rely_trans).
      cbn [msg_ok]. split; [exact Hk'|]. split.
      + destruct Hk' as (u' & Eu & Hd). destruct Hk3 as (u3 & Eu3 & Hd3).
        assert (u3 = u') by congruence. subst u3. apply jdef_proj in Hd as (_ & Hp & _). apply jdef_proj in Hd3 as (_ & Hp3 & _).
        unfold has_id, is_noid in Eh. rewrite <- Hp, Hp3. apply negb_false_iff in Eh; apply N.eqb_eq in Eh; exact Eh.
      + right. split; [reflexivity|]. destruct (j_state j'); easy. }
  destruct (job_live (j_state u)) eqn:El.
  - ands; auto.
    + pose proof (live_pos _ Hu El). destruct Hu as (?&?&?&?&?&?). unfold job_ok; cbn. ands; auto; try easy.
    + unfold job_step; cbn. apply live_spec in El. ands; auto; try (intros; congruence).
      all: try (right; apply je_fail; assumption).
      intros Ex. exfalso. unfold live in El. rewrite <- Ex in El. intuition congruence.
  - ands; auto. apply job_step_refl.
Qed.

Lemma W_cancel_handler j w0 :
  o = OMsg (MJob j) -> j_state j = JCancelled -> job_known w0 j -> W w0 (cancel_handler j) PN.
Proof.
  intros Ho Hs Hk. assert (Hm : is_msg o) by (eexists; eauto).
  assert (Hj : j_id j = job_of o) by (now subst).
  unfold cancel_handler. apply W_bind, W_update_job; [errs_tac|].
  intros w u HR HI E Hid Hu. cbn [modi].
  assert (Hpost : forall w', rely w0 w' ->
     W w' ((if has_id (j_parent j)
       then
        let* pt := catch (get_task (j_parent j)) (fun _ _ => panic) in
        let* pj := catch (get_job (t_job pt)) (fun _ _ => panic) in
        catch (publish_job (pj <| j_state := JCancelled |>)) (fun _ _ => ret tt)
       else ret tt);;; cancel_active_tasks (j_id j)) PN).
  { clear w u HR HI E Hid Hu. intros w HR. apply W_bind.
    match goal with |- W _ ?p _ => assert (Hp : W w p PN) end.
    2:{ eapply W_conseq; [exact Hp|]. intros w1 r Hr. destruct r; auto. rewrite Hj. now apply W_cancel_active. }
    destruct (has_id (j_parent j)) eqn:Eh; [|exact I].
    assert (Hps : panic_site o).
    { right. exists j. repeat split; auto. intros E. rewrite E in Eh. discriminate. }
    apply W_bind, W_catch, W_get_task; [intros w1 e _; exact Hps|].
    intros w1 t HR1 HI1 _ _ _.
    apply W_bind, W_catch, W_get_job; [intros w2 e _; exact Hps|].
    intros w2 pj HR2 HI2 E Hid Hpj.
    apply W_catch, W_publish; [errs_tac| |cbn; auto].
    intros w3 HR3 HI3. cbn. ands; auto; [|apply Hpj].
    apply (job_known_def _ pj); [eapply job_known_rely; [exact HR3|apply job_known_row; rewrite Hid; exact E]|reflexivity]. }
  destruct (job_live (j_state u)) eqn:El.
  - ands; auto.
    + pose proof (live_pos _ Hu El). destruct Hu as (?&?&?&?&?&?). unfold job_ok; cbn. ands; auto; try easy.
    + unfold job_step; cbn. apply live_spec in El. ands; auto; try (intros; congruence).
      all: try (right; apply je_cancel; auto; exists j; now auto).
  - ands; auto. apply job_step_refl.
Qed.

Lemma W_mark_running j w0 :
  (from_queue QUEUE_STARTED o) -> j_id j = job_of o -> W w0 (mark_running j) PN.
Proof.
  intros Hq Hj. unfold mark_running. apply W_update_job; [errs_tac|].
  intros w u HR HI E Hid Hu. cbn [modi].
  destruct (jstate_eqb (j_state u) JScheduled) eqn:Es.
  - assert (Hsu : j_state u = JScheduled) by (destruct (j_state u); easy).
    ands; auto; try (intros; exact I).
    + assert (1 <= j_position u) by (apply live_pos; auto; now rewrite Hsu).
      destruct Hu as (?&?&?&?&?&?). unfold job_ok; cbn. ands; auto; try easy.
    + unfold job_step; cbn. rewrite Hsu. ands; auto; try (intros; congruence).
      right. now apply je_run.
  - ands; auto; try (intros; exact I). apply job_step_refl.
Qed.

Lemma W_complete_job j w0 :
  from_queue QUEUE_COMPLETED o -> j_id j = job_of o -> job_known w0 j -> W w0 (complete_job O j) PN.
Proof.
  intros Hq Hj Hk. unfold complete_job. apply W_bind, W_now. intros w c HR.
  apply W_bind, W_update_job; [errs_tac|].
  intros w1 u HR1 HI1 E Hid Hu. unfold complete_job_modify.
  destruct (job_live (j_state u)) eqn:El; [|exact I].
  assert (Hpost : forall (j' : job) w', rely w w' -> jdef j' = jdef j ->
     j_state j' = JFailed \/ j_state j' = JCompleted ->
     W w' (if has_id (j_parent j)
    then
     let* pt := get_task (j_parent j) in
     let* n2 := now in
     if jstate_eqb (j_state j') JFailed
     then publish_task QUEUE_COMPLETED (pt <| t_state := TFailed |> <| t_failed := Some n2 |> <| t_error := j_error j' |>)
     else publish_task QUEUE_COMPLETED (pt <| t_state := TCompleted |> <| t_completed := Some n2 |> <| t_result := j_result j' |>)
    else if jstate_eqb (j_state j') JFailed then publish_event TOPIC_JOB_FAILED j' else publish_event TOPIC_JOB_COMPLETED j') PN).
  { clear - HR Hk. intros j' w' HR' Hd Hs. assert (Hk' : job_known w' j') by (apply (job_known_def _ j); [eapply job_known_rely; [|exact Hk]; eauto using rely_trans|exact Hd]).
    destruct (has_id (j_parent j)) eqn:Eh.
    - apply W_bind, W_get_task; [errs_tac|]. intros w1 t HR1 HI1 E Hid Hok.
      apply W_bind, W_now. intros w2 n2 HR2.
      destruct (jstate_eqb (j_state j') JFailed); (apply W_publish; [errs_tac| |cbn; auto]);
        intros w3 HR3 HI3; cbn; (split; [exact Hok|]);
        (apply (task_known_fields _ t); [eapply task_known_rely; [eapply rely_trans; [exact HR2|exact HR3]|apply task_known_row; rewrite Hid; exact E]| | | | | | |]; reflexivity).
    - assert (Hp : j_parent j' = noid).
      { apply jdef_proj in Hd as (_ & Hp & _). rewrite Hp. unfold has_id, is_noid in Eh. apply negb_false_iff in Eh; apply N.eqb_eq in Eh; exact Eh. }
      destruct (jstate_eqb (j_state j') JFailed) eqn:Es; (apply W_publish; [errs_tac| |cbn; auto]); intros w3 HR3 HI3;
        (split; [eapply job_known_rely; [exact HR3|exact Hk']|split; [exact Hp|]]).
      + right. split; [reflexivity|]. destruct (j_state j'); easy.
      + left. split; [reflexivity|]. destruct Hs as [Hs|Hs]; [rewrite Hs in Es; discriminate|exact Hs]. }
  pose proof (live_pos _ Hu El) as Hp1. pose proof (proj1 (live_spec _) El) as Hlive.
  assert (Hedge : forall u', jdef u' = jdef u -> (j_state u' = JFailed \/ j_state u' = JCompleted) ->
            j_position u' = j_position u -> c_tasks (j_context u') = c_tasks (j_context u) ->
            job_ok u' /\ job_step o u u').
  { intros u' Hd Hst Hpos Hctx. pose proof (jdef_proj _ _ Hd) as (X1&X2&X3&X4&X5&_).
    destruct Hu as (?&?&?&?&?&?). split.
    - unfold job_ok. rewrite X3, X4, X5, Hpos. ands; auto; destruct Hst as [->| ->]; try easy.
    - unfold job_step. ands; auto; try (intros; congruence).
      + right. destruct Hst as [->| ->]; [apply je_fail|apply je_complete]; auto. destruct Hq as [t ->]; eexists; eauto.
      + intros Ex. exfalso. unfold live in Hlive. rewrite <- Ex in Hlive. intuition congruence. }
  destruct (o_tmpl O (j_context j) None (j_output j)) as [res|err].
  - destruct (j_autodelete j) as [a|]; [destruct (nonempty (ad_after a)); [destruct (o_dur O (ad_after a))|]|].
    all: match goal with |- jdef ?u' = _ /\ _ => destruct (Hedge u') as [Ha Hb]; [reflexivity|cbn; auto|reflexivity|reflexivity|] end.
    all: split; [reflexivity|split; [exact Ha|split; [exact Hb|]]].
    all: intros w' HR' _; cbv beta; apply Hpost; [exact HR'|reflexivity|cbn; auto].
  - match goal with |- jdef ?u' = _ /\ _ => destruct (Hedge u') as [Ha Hb]; [reflexivity|cbn; auto|reflexivity|reflexivity|] end.
    split; [reflexivity|split; [exact Ha|split; [exact Hb|]]].
    intros w' HR' _; cbv beta; apply Hpost; [exact HR'|reflexivity|cbn; auto].
Qed.
End Handlers.
