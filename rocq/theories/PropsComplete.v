(** Property theorems about the handling of completions, alone and without faults, in any reachable state:
    C07, C08, C22, C28, C29, C30. *)
From Verif Require Import SeqTools SpecComplete InvSched InvMsgs Sim PropsSched.
Open Scope string_scope.
Open Scope list_scope.
Open Scope Z_scope.

Lemma round_div_spec a b : 0 <= a -> 0 < b -> rounds_to a b (round_div a b).
Proof.
  intros Ha Hb. unfold round_div, rounds_to. destruct (0 <=? a) eqn:E; [|apply Z.leb_gt in E; lia].
  pose proof (Z.div_mod (2 * a + b) (2 * b) ltac:(lia)) as H. pose proof (Z.mod_pos_bound (2 * a + b) (2 * b) ltac:(lia)). nia.
Qed.
Lemma smap_get_set k v m k' : smap_get k' (smap_set k v m) = if String.eqb k' k then Some v else smap_get k' m.
Proof.
  induction m as [|[a b] m IH]; cbn.
  - rewrite String.eqb_sym. destruct (String.eqb k' k); reflexivity.
  - destruct (String.eqb a k) eqn:E; cbn.
    + apply String.eqb_eq in E; subst a. rewrite (String.eqb_sym k k'). destruct (String.eqb k' k); reflexivity.
    + rewrite IH. destruct (String.eqb a k') eqn:E2; [|reflexivity]. apply String.eqb_eq in E2; subst k'.
      rewrite E. reflexivity.
Qed.
Lemma ctx_put_spec t c : context_after t c (ctx_put t c).
Proof.
  unfold context_after, ctx_put, nonempty, is_empty. destruct (String.eqb (t_result t) "") eqn:E1, (String.eqb (t_var t) "") eqn:E2; cbn [negb andb]; repeat split;
    intros k; rewrite ?andb_false_r; cbn; auto. rewrite smap_get_set. rewrite ?andb_true_r. reflexivity.
Qed.
Lemma completable_acc s : completable s = true <-> acceptable s.
Proof. unfold acceptable. destruct s; cbn; split; intros H; auto; try discriminate; destruct H as [H|[H|H]]; discriminate. Qed.
Lemma complete_modify_acc t u : acceptable (t_state u) ->
  complete_modify t u = Ok (u <| t_state := t_state t |> <| t_completed := t_completed t |> <| t_result := t_result t |>, tt).
Proof. intros H. unfold complete_modify. apply completable_acc in H. now rewrite H. Qed.

(** atomic operations without faults, as equations on [act]s *)
Lemma act_update_task {A} i (f : task -> outcome (task * A)) w u u' a : w_faults w = [] -> find_task i w = Some u -> f u = Ok (u', a) ->
  a_update_task i f w = (w <| w_tasks := put_task u' (w_tasks w) |>, Ok a).
Proof. intros H E Ef. rewrite <- (run_op (a_update_task i f)). now apply (run_update_task i f w u). Qed.
Lemma act_update_job {A} i (f : job -> outcome (job * A)) w u u' a : w_faults w = [] -> find_job i w = Some u -> f u = Ok (u', a) ->
  a_update_job i f w = (w <| w_jobs := put_job u' (w_jobs w) |>, Ok a).
Proof. intros H E Ef. rewrite <- (run_op (a_update_job i f)). now apply (run_update_job i f w u). Qed.

Lemma run_with_tx_ok {A} (b : act A) w w1 a : b (w <| w_auto := [] |>) = (w1, Ok a) -> w_faults w1 = [] ->
  run (with_tx b) w = (w1 <| w_auto := [] |>, Ok a).
Proof. intros E H. unfold with_tx. rewrite run_op. unfold a_with_tx. rewrite E. unfold faulty. rewrite H. reflexivity. Qed.

(** the job after an accepted completion *)
Definition adv (t : task) (j : job) : job :=
  j <| j_progress := round_div (j_position j * 10000) (j_taskcount j) |> <| j_position := j_position j + 1 |>
    <| j_context := ctx_put t (j_context j) |>.
Lemma adv_spec t j : 0 <= j_position j -> 0 < j_taskcount j -> advanced t j (adv t j).
Proof.
  intros H1 H2. unfold advanced. split; [reflexivity|]. split; [|split; [apply ctx_put_spec|reflexivity]].
  cbn. rewrite Z.mul_comm. apply round_div_spec; lia.
Qed.

Lemma tx_complete_top t w u j : w_faults w = [] -> find_task (t_id t) w = Some u -> acceptable (t_state u) ->
  find_job (t_job t) w = Some j -> j_taskcount j <> 0 ->
  run (with_tx (a_complete_top t)) w =
  (w <| w_auto := [] |> <| w_tasks := put_task (u <| t_state := t_state t |> <| t_completed := t_completed t |> <| t_result := t_result t |>) (w_tasks w) |>
     <| w_jobs := put_job (adv t j) (w_jobs w) |>, Ok tt).
Proof.
  intros Hf Hu Ha Hj Hc. erewrite run_with_tx_ok.
  2:{ unfold a_complete_top, abind. erewrite act_update_task; [|exact Hf|exact Hu|apply complete_modify_acc; exact Ha].
      erewrite act_update_job; [reflexivity|exact Hf|exact Hj|]. unfold advance_job. destruct (j_taskcount j =? 0) eqn:E; [apply Z.eqb_eq in E; contradiction|]. reflexivity. }
  2:{ exact Hf. }
  reflexivity.
Qed.

Lemma instantiate_next O j def i clk pos : pos = j_position j -> next_instance O j def i clk (instantiate O j def pos i clk).
Proof.
  intros ->. unfold next_instance, instantiate.
  set (t1 := def <| t_id := i |> <| t_job := j_id j |> <| t_state := TPending |> <| t_position := j_position j |> <| t_created := Some clk |>).
  assert (E : t1 = identity i (j_id j) (t_parent def) TPending (j_position j) (Some clk) def).
  { unfold t1, identity. rewrite (task_eta def). reflexivity. }
  rewrite E. unfold evaluate_task. rewrite eval_identity. destruct (eval_task (o_tmpl O (j_context j) None) def); reflexivity.
Qed.

(** facts available in every reachable state about a completion message *)
Lemma completion_facts O c q t : reachable O c -> In (MTask q t) (w_hist (cw c)) ->
  exists u j, find_task (t_id t) (cw c) = Some u /\ t_job u = t_job t /\ t_id u = t_id t /\ find_job (t_job t) (cw c) = Some j /\ j_id j = t_job t /\
    0 <= j_position j /\ j_taskcount j = Z.of_nat (length (j_tasks j)) /\ Forall pristine (j_tasks j).
Proof.
  intros HR Hin. pose proof (reachable_inv _ _ HR) as HI. destruct (inv_hist _ HI _ Hin) as (Hok & u & Hu & Hab).
  destruct (inv_tasks _ HI u (find_task_in _ _ _ Hu)) as (_ & _ & _ & j & Hj).
  destruct Hab as (H1 & H2 & _). rewrite H2 in Hj. exists u, j. destruct (inv_jobs _ HI j (find_job_in _ _ _ Hj)) as [(A & _ & B & _ & _ & C) _].
  pose proof (find_job_id _ _ _ Hj). repeat split; auto.
Qed.

(** the common prefix: the completion is recorded *)
Lemma completed_run O c fuel t u j : reachable O c -> w_faults (cw c) = [] -> In (MTask QUEUE_COMPLETED t) (w_hist (cw c)) ->
  completion t -> t_parent t = noid -> find_task (t_id t) (cw c) = Some u -> acceptable (t_state u) ->
  find_job (t_job t) (cw c) = Some j -> j_tasks j <> [] ->
  let w := cw c in
  let t1 := t <| t_completed := Some (w_clock w) |> in
  let w1 := w <| w_auto := [] |> <| w_tasks := put_task (completed_row (w_clock w) t u) (w_tasks w) |> <| w_jobs := put_job (adv t j) (w_jobs w) |> in
  find_job (t_job t) w1 = Some (adv t j) /\ 0 < j_taskcount j /\ 0 <= j_position j /\
  run (completed_handler O fuel t) w =
  run (with_msg t1 (if j_position j + 1 <=? Z.of_nat (length (j_tasks j)) then
    match nth_task (j_tasks j) (j_position j + 1 - 1) with
    | None => panic
    | Some t0 =>
        let* i := new_id in
        let nx := instantiate O (adv t j) t0 (j_position (adv t j)) i (w_clock w) in
        create_task nx ;;;
        publish_task QUEUE_PENDING nx
    end
  else job_handler O ((adv t j) <| j_state := JCompleted |> <| j_completed := Some (w_clock w) |>))) w1.
Proof.
  intros HR Hf Hin Hst Hpar Hu Ha Hj Hne.
  destruct (completion_facts _ _ _ _ HR Hin) as (u0 & j0 & Hu0 & Hub & Hui & Hj0 & Hji & Hp0 & Htc & Hpr).
  rewrite Hu in Hu0. injection Hu0 as <-. rewrite Hj in Hj0. injection Hj0 as <-.
  assert (Hcnt : 0 < j_taskcount j) by (rewrite Htc; destruct (j_tasks j); [contradiction|cbn [length]; lia]).
  cbn zeta. set (w := cw c) in *.
  set (t1 := t <| t_completed := Some (w_clock w) |>).
  set (w1 := w <| w_auto := [] |> <| w_tasks := put_task (completed_row (w_clock w) t u) (w_tasks w) |> <| w_jobs := put_job (adv t j) (w_jobs w) |>).
  assert (Etx : run (with_tx (a_complete_top t1)) w = (w1, Ok tt)).
  { rewrite (tx_complete_top t1 w u j Hf Hu Ha Hj ltac:(lia)). reflexivity. }
  assert (Hj1 : find_job (t_job t) w1 = Some (adv t j)).
  { rewrite <- Hji in Hj |- *. apply (put_job_effect w w1 j (adv t j)); auto. }
  split; [exact Hj1|]. split; [exact Hcnt|]. split; [exact Hp0|].
  unfold completed_handler. rewrite run_bind, run_now.
  replace (match t_state t with TCompleted | TSkipped => with_msg (t <| t_completed := Some (w_clock w) |>) (complete_task O fuel (t <| t_completed := Some (w_clock w) |>)) | _ => fail "invalid completion state" end)
    with (with_msg t1 (complete_task O fuel t1)) by (destruct Hst as [E|E]; rewrite E; reflexivity).
  rewrite !run_with_msg. assert (Ec : complete_task O fuel t1 = complete_top O t1).
  { destruct fuel; cbn [complete_task]; change (t_parent t1) with (t_parent t); rewrite Hpar; reflexivity. }
  rewrite Ec. unfold complete_top. rewrite run_bind, Etx, run_bind, run_get_job by exact Hf.
  change (t_job t1) with (t_job t). rewrite Hj1, run_bind, run_now. reflexivity.
Qed.

(** ** C07, C08, C30: a task completes and there are more *)
Theorem C07_next_task_is_started : forall O c fuel t u j,
  reachable O c -> w_faults (cw c) = [] -> In (MTask QUEUE_COMPLETED t) (w_hist (cw c)) ->
  completion t -> t_parent t = noid ->
  find_task (t_id t) (cw c) = Some u -> acceptable (t_state u) ->
  find_job (t_job t) (cw c) = Some j -> j_position j < Z.of_nat (length (j_tasks j)) ->
  exists w' j' def nx,
    run (deliver O fuel (MTask QUEUE_COMPLETED t)) (cw c) = (w', Ok tt) /\
    advanced t j j' /\ nth_error (j_tasks j) (Z.to_nat (j_position j)) = Some def /\
    next_instance O j' def (w_fresh (cw c)) (w_clock (cw c)) nx /\
    w_tasks w' = put_task (completed_row (w_clock (cw c)) t u) (w_tasks (cw c)) ++ [db_task nx] /\
    w_jobs w' = put_job j' (w_jobs (cw c)) /\
    published (cw c) w' [MTask QUEUE_PENDING nx].
Proof.
  intros O c fuel t u j HR Hf Hin Hst Hpar Hu Ha Hj Hpos.
  assert (Hne : j_tasks j <> []).
  { destruct (completion_facts _ _ _ _ HR Hin) as (? & j0 & _ & _ & _ & Hj0 & _ & Hp0 & _). rewrite Hj in Hj0. injection Hj0 as <-.
    intros E. rewrite E in Hpos. cbn in Hpos. lia. }
  destruct (completed_run O c fuel t u j HR Hf Hin Hst Hpar Hu Ha Hj Hne) as (Hj1 & Hcnt & Hp0 & Er).
  pose proof (reachable_inv _ _ HR) as HI. pose proof (find_job_id _ _ _ Hj) as Hji. cbn zeta in Hj1, Er. set (w := cw c) in *.
  set (w1 := w <| w_auto := [] |> <| w_tasks := _ |> <| w_jobs := _ |>) in *.
  destruct (nth_error (j_tasks j) (Z.to_nat (j_position j))) as [def|] eqn:Edef; [|apply nth_error_None in Edef; lia].
  set (nx := instantiate O (adv t j) def (j_position (adv t j)) (w_fresh w) (w_clock w)).
  assert (Hnx : next_instance O (adv t j) def (w_fresh w) (w_clock w) nx) by now apply instantiate_next.
  assert (Hnid : t_id nx = w_fresh w /\ t_job nx = j_id j).
  { unfold next_instance in Hnx. destruct (eval_task _ def); rewrite Hnx; cbn; auto. }
  destruct Hnid as [Hn1 Hn2].
  eexists. exists (adv t j), def, nx. split.
  - rewrite deliver_completed. unfold task_wrapper. rewrite run_catch, Er, run_with_msg.
    destruct (j_position j + 1 <=? Z.of_nat (length (j_tasks j))) eqn:E; [|apply Z.leb_gt in E; lia].
    unfold nth_task. replace (j_position j + 1 - 1) with (j_position j) by lia. destruct (j_position j <? 0) eqn:E2; [apply Z.ltb_lt in E2; lia|].
    rewrite Edef. rewrite run_bind, run_new_id. change (w_fresh w1) with (w_fresh w). fold nx. rewrite run_bind.
    rewrite (run_create_task nx _ (adv t j)); [|exact Hf| |rewrite Hn2, Hji; exact Hj1].
    2:{ rewrite Hn1. change (find_task (w_fresh w) w1 = None). destruct (find_task (w_fresh w) w1) as [x|] eqn:Ex; [|reflexivity].
        pose proof (find_task_id _ _ _ Ex) as Hxi. apply find_task_in in Ex. cbn in Ex. apply (in_map t_id) in Ex. rewrite map_id_put_task in Ex.
        apply in_map_iff in Ex as (y & Hy & Hin2). apply (inv_task_fresh _ HI) in Hin2. lia. }
    unfold publish_task. rewrite run_publish by exact Hf. reflexivity.
  - split; [apply adv_spec; lia|]. split; [reflexivity|]. split; [exact Hnx|]. repeat split.
Qed.
Print Assumptions C07_next_task_is_started.

(** ** C07, C08, C22, C28, C29: the last task completes *)
Lemma complete_modify_finished O j clk u : j_state u = JScheduled \/ j_state u = JRunning ->
  j_autodelete j = j_autodelete u -> j_context j = j_context u -> j_output j = j_output u -> j_deleteat j = j_deleteat u ->
  exists jx, complete_job_modify O j clk u = Ok (finished_row O u clk, jx) /\ j_id jx = j_id j /\ j_context jx = j_context j /\
    match output_of O u with
    | inl r => j_state jx = JCompleted /\ j_result jx = r
    | inr e => j_state jx = JFailed /\ j_error jx = e
    end.
Proof.
  intros Hl Ha Hc Ho Hd. unfold complete_job_modify. replace (job_live (j_state u)) with true by (destruct Hl as [->| ->]; reflexivity).
  unfold finished_row, output_of, deletion_time. rewrite Hc, Ho, Ha. destruct (o_tmpl O (j_context u) None (j_output u)) as [r|e].
  2:{ eexists; split; [reflexivity|]; cbn; rewrite Hc; auto. }
  destruct (j_autodelete u) as [a|].
  - unfold nonempty, is_empty. destruct (String.eqb (ad_after a) ""); cbn [negb].
    + eexists; split; [reflexivity|cbn; auto].
    + destruct (o_dur O (ad_after a)).
      * eexists; split; [reflexivity|cbn; auto].
      * eexists; split; [reflexivity|cbn; auto].
  - eexists; split; [reflexivity|cbn; auto].
Qed.

Theorem C28_last_task_finishes_job : forall O c fuel t u j,
  reachable O c -> w_faults (cw c) = [] -> In (MTask QUEUE_COMPLETED t) (w_hist (cw c)) ->
  completion t -> t_parent t = noid ->
  find_task (t_id t) (cw c) = Some u -> acceptable (t_state u) ->
  find_job (t_job t) (cw c) = Some j -> live (j_state j) -> j_tasks j <> [] -> Z.of_nat (length (j_tasks j)) <= j_position j ->
  exists w' j' m,
    run (deliver O fuel (MTask QUEUE_COMPLETED t)) (cw c) = (w', Ok tt) /\
    advanced t j j' /\
    w_tasks w' = put_task (completed_row (w_clock (cw c)) t u) (w_tasks (cw c)) /\
    w_jobs w' = put_job (finished_row O j' (w_clock (cw c))) (w_jobs (cw c)) /\
    published (cw c) w' [m] /\
    (j_parent j = noid -> announces O j' (w_clock (cw c)) m) /\
    (j_parent j <> noid -> exists pt, find_task (j_parent j) w' = Some pt /\ reports_to_parent O j' (w_clock (cw c)) pt m).
Proof.
  intros O c fuel t u j HR Hf Hin Hst Hpar Hu Ha Hj Hlive Hne Hpos.
  destruct (completed_run O c fuel t u j HR Hf Hin Hst Hpar Hu Ha Hj Hne) as (Hj1 & Hcnt & Hp0 & Er).
  pose proof (reachable_inv _ _ HR) as HI. pose proof (find_job_id _ _ _ Hj) as Hji. cbn zeta in Hj1, Er. set (w := cw c) in *.
  set (w1 := w <| w_auto := [] |> <| w_tasks := _ |> <| w_jobs := _ |>) in *.
  set (ja := (adv t j) <| j_state := JCompleted |> <| j_completed := Some (w_clock w) |>).
  destruct (complete_modify_finished O ja (w_clock w) (adv t j)) as (jx & Em & X1 & X2 & X3); [exact Hlive|reflexivity..|].
  set (w2 := w1 <| w_jobs := put_job (finished_row O (adv t j) (w_clock w)) (w_jobs w1) |>).
  assert (Hid : j_id (finished_row O (adv t j) (w_clock w)) = j_id j) by (unfold finished_row; destruct (output_of _ _); reflexivity).
  assert (Ew2 : w_jobs w2 = put_job (finished_row O (adv t j) (w_clock w)) (w_jobs w)).
  { cbn. apply put_job_put. now rewrite Hid. }
  assert (Eu : run (update_job (j_id ja) (complete_job_modify O ja (w_clock w))) w1 = (w2, Ok jx)).
  { apply (run_update_job _ _ w1 (adv t j)); [exact Hf|change (j_id ja) with (j_id j); rewrite Hji; exact Hj1|exact Em]. }
  assert (Erun : forall w', run (if has_id (j_parent j) then
        let* pt := get_task (j_parent j) in
        let* n2 := now in
        if jstate_eqb (j_state jx) JFailed
        then publish_task QUEUE_COMPLETED (pt <| t_state := TFailed |> <| t_failed := Some n2 |> <| t_error := j_error jx |>)
        else publish_task QUEUE_COMPLETED (pt <| t_state := TCompleted |> <| t_completed := Some n2 |> <| t_result := j_result jx |>)
      else
        if jstate_eqb (j_state jx) JFailed then publish_event TOPIC_JOB_FAILED jx else publish_event TOPIC_JOB_COMPLETED jx) w2 = (w', Ok tt) ->
    run (deliver O fuel (MTask QUEUE_COMPLETED t)) w = (w', Ok tt)).
  { intros w' Eo. rewrite deliver_completed. unfold task_wrapper. rewrite run_catch, Er, run_with_msg.
    destruct (j_position j + 1 <=? Z.of_nat (length (j_tasks j))) eqn:E; [apply Z.leb_le in E; lia|].
    fold ja. change (job_handler O ja) with (complete_job O ja). unfold complete_job. rewrite run_bind, run_now. change (w_clock w1) with (w_clock w).
    rewrite run_bind, Eu. change (j_parent ja) with (j_parent j). rewrite Eo. reflexivity. }
  assert (Hadv : advanced t j (adv t j)) by (apply adv_spec; lia).
  destruct (has_id (j_parent j)) eqn:Ep.
  - assert (Hp : j_parent j <> noid) by (intros E; rewrite E in Ep; discriminate).
    destruct (inv_jobs _ HI j (find_job_in _ _ _ Hj)) as [_ Hjp]. destruct (Hjp Hp) as (pt0 & Hpt0 & _).
    assert (Hpt : exists pt, find_task (j_parent j) w2 = Some pt).
    { destruct (find_task (j_parent j) w2) as [x|] eqn:Ex; [eauto|]. rewrite find_task_t in Ex. apply tfind_none in Ex.
      rewrite find_task_t in Hpt0. exfalso. assert (Hx : In (j_parent j) (map t_id (w_tasks w2))).
      { cbn. rewrite map_id_put_task. apply in_map_iff. exists pt0. split; [eapply tfind_key; eauto|eapply tfind_in; eauto]. }
      apply in_map_iff in Hx as (y & Hy & Hy2). assert (F : existsb (fun x => N.eqb (t_id x) (j_parent j)) (w_tasks w2) = true).
      { apply existsb_exists. exists y. split; [exact Hy2|]. apply N.eqb_eq. exact Hy. }
      congruence. }
    destruct Hpt as (pt & Hpt). rewrite run_bind, run_get_task, Hpt, run_bind, run_now in Erun by exact Hf.
    change (w_clock w2) with (w_clock w) in Erun.
    destruct (output_of O (adv t j)) as [r|e] eqn:Eo; destruct X3 as [X3 X4]; rewrite X3, X4 in Erun; cbn [jstate_eqb] in Erun;
    unfold publish_task in Erun; rewrite run_publish in Erun by exact Hf;
    eexists; exists (adv t j); eexists; (split; [apply Erun; reflexivity|]); (split; [exact Hadv|]); (split; [reflexivity|]); (split; [exact Ew2|]); (split; [reflexivity|]);
    (split; [intros; contradiction|]); intros _; exists pt; (split; [exact Hpt|]); unfold reports_to_parent; rewrite Eo; reflexivity.
  - assert (Hp : j_parent j = noid) by (unfold has_id, is_noid in Ep; apply negb_false_iff, N.eqb_eq in Ep; exact Ep).
    destruct (output_of O (adv t j)) as [r|e] eqn:Eo; destruct X3 as [X3 X4]; rewrite X3 in Erun; cbn [jstate_eqb] in Erun;
    unfold publish_event in Erun; rewrite run_publish in Erun by exact Hf;
    eexists; exists (adv t j); eexists; (split; [apply Erun; reflexivity|]); (split; [exact Hadv|]); (split; [reflexivity|]); (split; [exact Ew2|]); (split; [reflexivity|]);
    (split; [|intros; contradiction]); intros _; unfold announces; rewrite Eo; eexists; (split; [reflexivity|]); auto 10.
Qed.
Print Assumptions C28_last_task_finishes_job.

(** ** C08 *)
Theorem C08_progress_in_range : forall t j j',
  advanced t j j' -> 0 < j_taskcount j -> 0 <= j_position j <= j_taskcount j ->
  0 <= j_progress j' <= 10000 /\ (j_position j = j_taskcount j -> j_progress j' = 10000) /\ (j_position j < j_taskcount j -> 1 <= j_position j -> j_taskcount j <= 5000 -> 0 < j_progress j' < 10000).
Proof. intros t j j' (_ & H & _) Hc Hp. unfold rounds_to in H. repeat split; nia. Qed.
Print Assumptions C08_progress_in_range.
Theorem C08_progress_grows : forall t1 t2 j1 j1' j2 j2',
  advanced t1 j1 j1' -> advanced t2 j2 j2' -> 0 < j_taskcount j1 -> j_taskcount j2 = j_taskcount j1 -> j_position j1 <= j_position j2 ->
  j_progress j1' <= j_progress j2'.
Proof.
  intros t1 t2 j1 j1' j2 j2' (_ & H1 & _) (_ & H2 & _) Hc E Hp. unfold rounds_to in *. rewrite E in *.
  destruct (Z_le_gt_dec (j_progress j1') (j_progress j2')); [auto|]. exfalso. nia.
Qed.
Print Assumptions C08_progress_grows.

(** ** Non-vacuity: an intermediate and a last completion of a real run, and of a sub-job *)
Definition half_run : list cmd :=
  [CApi (OSubmit (demo_job [simple "a" <| t_var := "x" |>; simple "b"])); CRun 0 100; CDeliver 0; CRun 1 100; CComplete 1 "r"].
Example C07_nonvacuous : exists c t u j, reachable O0 c /\ w_faults (cw c) = [] /\ In (MTask QUEUE_COMPLETED t) (w_hist (cw c)) /\
  completion t /\ t_parent t = noid /\ find_task (t_id t) (cw c) = Some u /\ acceptable (t_state u) /\
  find_job (t_job t) (cw c) = Some j /\ j_position j < Z.of_nat (length (j_tasks j)).
Proof.
  exists (sim_c O0 start half_run). do 3 eexists.
  split; [apply sim_c_reachable; [repeat (constructor; [cbn; unfold accepted; cbn; repeat split; repeat constructor; easy|]); try constructor|reflexivity]|].
  split; [reflexivity|]. split; [vm_compute; right; right; left; reflexivity|]. split; [left; reflexivity|]. split; [reflexivity|].
  split; [vm_compute; reflexivity|]. split; [right; left; reflexivity|]. split; vm_compute; reflexivity.
Qed.
Example C28_nonvacuous : exists c t u j, reachable O0 c /\ w_faults (cw c) = [] /\ In (MTask QUEUE_COMPLETED t) (w_hist (cw c)) /\
  completion t /\ t_parent t = noid /\ find_task (t_id t) (cw c) = Some u /\ acceptable (t_state u) /\
  find_job (t_job t) (cw c) = Some j /\ live (j_state j) /\ j_tasks j <> [] /\ Z.of_nat (length (j_tasks j)) <= j_position j /\ j_parent j <> noid.
Proof.
  exists (sim_c O0 start [CApi (OSubmit (demo_job [blank_task <| t_name := "sub" |> <| t_subjob := Some (mkSubJob noid "s" "" [simple "x"] [] [] None "out" false []) |>])); CRun 0 100; CDeliver 0; CRun 1 100; CDeliver 1; CRun 2 100; CComplete 2 "r"]). do 3 eexists.
  split; [apply sim_c_reachable; [repeat (constructor; [cbn; unfold accepted; cbn; repeat split; repeat constructor; easy|]); try constructor|reflexivity]|].
  split; [reflexivity|]. split; [vm_compute; right; right; right; left; reflexivity|]. split; [left; reflexivity|]. split; [reflexivity|].
  split; [vm_compute; reflexivity|]. split; [right; left; reflexivity|]. split; [vm_compute; reflexivity|]. split; [left; reflexivity|].
  split; [discriminate|]. split; [vm_compute; discriminate|]. discriminate.
Qed.
