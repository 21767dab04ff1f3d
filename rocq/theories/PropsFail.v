(** Property theorems about failures, cancellation, late starts, restarts, redelivery and progress reports; handlers alone and
    without faults, in any reachable state: C14-C18, C24-C27, C58. *)
From Verif Require Import SeqTools SpecFail EvalProofs InvSched InvMsgs Sim PropsSched PropsComplete PropsState.
Open Scope string_scope.
Open Scope list_scope.
Open Scope Z_scope.

(** ** cancelling the active tasks of a job *)
Definition cancel_ids (ids : list id) (l : list task) : list task :=
  map (fun t => if existsb (N.eqb (t_id t)) ids then t <| t_state := TCancelled |> else t) l.
Lemma map_id_cancel_ids ids l : map t_id (cancel_ids ids l) = map t_id l.
Proof. unfold cancel_ids. rewrite map_map. apply map_ext. intros x. destruct (existsb _ _); reflexivity. Qed.
Lemma cancel_ids_cons a r l : cancel_ids r (cancel_ids [a] l) = cancel_ids (a :: r) l.
Proof.
  unfold cancel_ids. rewrite map_map. apply map_ext. intros x. cbn [existsb]. rewrite orb_false_r.
  destruct (N.eqb (t_id x) a) eqn:E; cbn [orb]; [|reflexivity]. cbn. destruct (existsb (N.eqb (t_id x)) r); reflexivity.
Qed.
Lemma put_cancel_ids u l : NoDup (map t_id l) -> In u l -> put_task (u <| t_state := TCancelled |>) l = cancel_ids [t_id u] l.
Proof.
  intros Hn Hin. unfold put_task, cancel_ids. apply map_ext_in. intros x Hx. cbn. rewrite orb_false_r.
  destruct (N.eqb (t_id x) (t_id u)) eqn:E; [|reflexivity]. apply N.eqb_eq in E.
  assert (x = u); [|subst; reflexivity]. clear -Hn Hin Hx E. induction l as [|y l IH]; [easy|]. cbn in Hn. inversion Hn; subst.
  destruct Hin as [->|Hin], Hx as [->|Hx]; auto.
  - exfalso. apply H1. rewrite <- E. now apply in_map.
  - exfalso. apply H1. rewrite E. now apply in_map.
Qed.
Lemma find_of_in w t : NoDup (map t_id (w_tasks w)) -> In t (w_tasks w) -> find_task (t_id t) w = Some t.
Proof.
  rewrite find_task_t. generalize (w_tasks w). intros l. induction l as [|y l IH]; [easy|]. cbn. intros Hn Hin. inversion Hn; subst.
  destruct Hin as [->|Hin]; [now rewrite N.eqb_refl|]. destruct (N.eqb (t_id y) (t_id t)) eqn:E; [|auto].
  apply N.eqb_eq in E. exfalso. apply H1. rewrite E. now apply in_map.
Qed.
Lemma find_job_of_in w t : NoDup (map j_id (w_jobs w)) -> In t (w_jobs w) -> find_job (j_id t) w = Some t.
Proof.
  rewrite find_job_t. generalize (w_jobs w). intros l. induction l as [|y l IH]; [easy|]. cbn. intros Hn Hin. inversion Hn; subst.
  destruct Hin as [->|Hin]; [now rewrite N.eqb_refl|]. destruct (N.eqb (j_id y) (j_id t)) eqn:E; [|auto].
  apply N.eqb_eq in E. exfalso. apply H1. rewrite E. now apply in_map.
Qed.
Lemma has_id_false i : has_id i = false <-> i = noid.
Proof. unfold has_id, is_noid. rewrite negb_false_iff, N.eqb_eq. reflexivity. Qed.
Lemma has_id_true i : has_id i = true <-> i <> noid.
Proof. unfold has_id, is_noid. rewrite negb_true_iff, N.eqb_neq. reflexivity. Qed.

Lemma cancel_tasks_run l : forall w w0, w_faults w = [] -> NoDup (map t_id (w_tasks w)) -> NoDup (map t_id l) ->
  (forall t, In t l -> In t (w_tasks w)) -> w_jobs w = w_jobs w0 -> w_nodes w = w_nodes w0 ->
  (forall t, In t l -> exists ms, notice w0 t ms) ->
  exists ms, notices w0 l ms /\
    run (cancel_tasks l) w = (w <| w_tasks := cancel_ids (map t_id l) (w_tasks w) |> <| w_hist := w_hist w ++ ms |>, Ok tt).
Proof.
  induction l as [|t l IH]; intros w w0 Hf Hnd Hnl Hin Ej En Hno.
  - exists []. split; [constructor|]. cbn [cancel_tasks]. rewrite run_ret. f_equal. apply world_eq; try reflexivity.
    + cbn. unfold cancel_ids. cbn. now rewrite map_id.
    + cbn. now rewrite app_nil_r.
  - destruct (Hno t (or_introl eq_refl)) as (m1 & Hm1).
    assert (Hft : find_task (t_id t) w = Some t) by (apply find_of_in; auto; apply Hin; now left).
    set (w1 := w <| w_tasks := put_task (t <| t_state := TCancelled |>) (w_tasks w) |>).
    set (w2 := w1 <| w_hist := w_hist w ++ m1 |>).
    assert (Ew1 : w_tasks w1 = cancel_ids [t_id t] (w_tasks w)) by (cbn; apply put_cancel_ids; auto; apply Hin; now left).
    cbn [cancel_tasks]. rewrite run_bind.
    rewrite (run_update_task (t_id t) _ w t (t <| t_state := TCancelled |>) tt Hf Hft eq_refl). fold w1.
    match goal with |- context [bind ?p (fun _ => cancel_tasks l)] =>
      assert (E2 : run p w1 = (w2, Ok tt)) end.
    { unfold w2. inversion Hm1 as [i sj Hs Hsj|n Hs Hn Hnode|Hs Hn]; subst m1; unfold has_subjob in Hs.
      - destruct (t_subjob t) as [s|]; [|discriminate]. destruct (N.eqb (s_id s) noid) eqn:Es; [discriminate|]. injection Hs as <-.
        apply N.eqb_neq in Es. rewrite (proj2 (has_id_true _) Es). rewrite run_bind, run_get_job by exact Hf.
        replace (find_job (s_id s) w1) with (find_job (s_id s) w0) by (unfold find_job; rewrite <- Ej; reflexivity). rewrite Hsj.
        unfold publish_job. rewrite run_publish by exact Hf. reflexivity.
      - assert (Eg : run (let* n := get_node (t_node t) in publish_task (n_queue n) (t <| t_state := TCancelled |>)) w1 = (w1 <| w_hist := w_hist w ++ [MTask (n_queue n) (t <| t_state := TCancelled |>)] |>, Ok tt)).
        { rewrite run_bind, run_get_node by exact Hf.
          replace (find_node (t_node t) w1) with (find_node (t_node t) w0) by (unfold find_node; rewrite <- En; reflexivity). rewrite Hnode.
          unfold publish_task. rewrite run_publish by exact Hf. reflexivity. }
        rewrite (proj2 (has_id_true _) Hn).
        destruct (t_subjob t) as [s|]; [|exact Eg]. destruct (N.eqb (s_id s) noid) eqn:Es; [|discriminate]. apply N.eqb_eq in Es.
        rewrite (proj2 (has_id_false _) Es). exact Eg.
      - rewrite (proj2 (has_id_false _) Hn).
        assert (Er : (w1, Ok tt) = (w1 <| w_hist := w_hist w ++ [] |>, Ok tt)).
        { f_equal. apply world_eq; try reflexivity. cbn. now rewrite app_nil_r. }
        destruct (t_subjob t) as [s|]; [|exact Er]. destruct (N.eqb (s_id s) noid) eqn:Es; [|discriminate]. apply N.eqb_eq in Es.
        rewrite (proj2 (has_id_false _) Es). exact Er. }
    rewrite run_bind, E2. destruct (IH w2 w0) as (m2 & Hm2 & Er).
    + exact Hf.
    + change (w_tasks w2) with (w_tasks w1). rewrite Ew1, map_id_cancel_ids. exact Hnd.
    + cbn in Hnl. now inversion Hnl.
    + intros x Hx. change (w_tasks w2) with (w_tasks w1). rewrite Ew1. unfold cancel_ids. apply in_map_iff. exists x. split; [|apply Hin; now right].
      cbn. rewrite orb_false_r. destruct (N.eqb (t_id x) (t_id t)) eqn:E; [|reflexivity]. apply N.eqb_eq in E. cbn in Hnl. inversion Hnl; subst.
      exfalso. apply H1. rewrite <- E. now apply in_map.
    + exact Ej.
    + exact En.
    + intros x Hx. apply Hno. now right.
    + exists (m1 ++ m2). split; [now constructor|]. rewrite Er. f_equal. apply world_eq; try reflexivity.
      * change (w_tasks w2) with (w_tasks w1). cbn [w_tasks]. cbn -[cancel_ids]. rewrite <- (cancel_ids_cons (t_id t)). rewrite <- Ew1. reflexivity.
      * cbn. now rewrite app_assoc.
Qed.
Lemma cancel_ids_active i l : NoDup (map t_id l) -> cancel_ids (map t_id (active_tasks i l)) l = cancel_active i l.
Proof.
  intros Hn. unfold cancel_ids, cancel_active. apply map_ext_in. intros x Hx.
  destruct (N.eqb (t_job x) i && active (t_state x))%bool eqn:E.
  - replace (existsb (N.eqb (t_id x)) (map t_id (active_tasks i l))) with true; [reflexivity|]. symmetry. apply existsb_exists.
    exists (t_id x). split; [|apply N.eqb_refl]. apply in_map. unfold active_tasks. apply filter_In. auto.
  - destruct (existsb (N.eqb (t_id x)) (map t_id (active_tasks i l))) eqn:Ex; [|reflexivity]. exfalso.
    apply existsb_exists in Ex as (k & Hk & Ek). apply N.eqb_eq in Ek. subst k. apply in_map_iff in Hk as (y & Hy & Hyin).
    unfold active_tasks in Hyin. apply filter_In in Hyin as [Hyin Hya].
    assert (x = y); [|subst; congruence]. clear -Hn Hx Hy Hyin. induction l as [|z l IH]; [easy|]. cbn in Hn. inversion Hn; subst.
    destruct Hx as [->|Hx], Hyin as [->|Hyin]; auto; exfalso; apply H1; [rewrite <- Hy|rewrite Hy]; now apply in_map.
Qed.
Lemma cancel_active_run i w w0 : w_faults w = [] -> NoDup (map t_id (w_tasks w)) -> w_jobs w = w_jobs w0 -> w_nodes w = w_nodes w0 ->
  (forall t, In t (active_tasks i (w_tasks w)) -> exists ms, notice w0 t ms) ->
  exists ms, notices w0 (active_tasks i (w_tasks w)) ms /\
    run (cancel_active_tasks i) w = (w <| w_tasks := cancel_active i (w_tasks w) |> <| w_hist := w_hist w ++ ms |>, Ok tt).
Proof.
  intros Hf Hn Ej En Hno. unfold cancel_active_tasks. rewrite run_bind, run_get_active by exact Hf.
  change (filter _ (w_tasks w)) with (active_tasks i (w_tasks w)).
  destruct (cancel_tasks_run (active_tasks i (w_tasks w)) w w0) as (ms & Hms & Er); auto.
  - clear -Hn. unfold active_tasks. induction (w_tasks w) as [|x l IH]; cbn; [constructor|]. cbn in Hn. inversion Hn; subst.
    destruct (N.eqb (t_job x) i && active (t_state x))%bool; cbn; auto. constructor; auto. intros Hc. apply H1.
    apply in_map_iff in Hc as (y & Hy & Hyin). apply filter_In in Hyin as [Hyin _]. rewrite <- Hy. now apply in_map.
  - intros t Ht. unfold active_tasks in Ht. now apply filter_In in Ht.
  - exists ms. split; [exact Hms|]. rewrite Er, cancel_ids_active by exact Hn. reflexivity.
Qed.

(** ** C16 *)
Lemma notice_transfer w w1 t ms : w_nodes w1 = w_nodes w -> (forall i j, find_job i w = Some j -> exists j', find_job i w1 = Some j') ->
  notice w t ms -> exists ms', notice w1 t ms'.
Proof.
  intros En Hj H. inversion H as [i sj Hs Hsj|n Hs Hn Hnode|Hs Hn]; subst.
  - destruct (Hj _ _ Hsj) as (j' & Hj'). eexists. eapply notice_subjob; eauto.
  - eexists. eapply notice_node; eauto. unfold find_node. rewrite En. exact Hnode.
  - eexists. eapply notice_none; eauto.
Qed.
Lemma notices_ext w w' l ms : w_jobs w' = w_jobs w -> w_nodes w' = w_nodes w -> notices w l ms -> notices w' l ms.
Proof.
  intros Ej En H. induction H as [|t l a b Ha Hb IH]; constructor; auto.
  inversion Ha; subst; [eapply notice_subjob|eapply notice_node|eapply notice_none]; eauto; unfold find_job, find_node; rewrite ?Ej, ?En; auto.
Qed.
Lemma find_put_job_some w w1 u' i j : w_jobs w1 = put_job u' (w_jobs w) -> find_job i w = Some j -> exists j', find_job i w1 = Some j'.
Proof.
  intros E Hj. rewrite !find_job_t in *. rewrite E, put_job_t. destruct (N.eq_dec i (j_id u')) as [->|Hn].
  - erewrite tfind_put_same; eauto.
  - rewrite tfind_put_other; eauto.
Qed.

Lemma find_put_task_some w w1 u' i t : w_tasks w1 = put_task u' (w_tasks w) -> find_task i w = Some t -> exists t', find_task i w1 = Some t'.
Proof.
  intros E Hj. rewrite !find_task_t in *. rewrite E, put_task_t. destruct (N.eq_dec i (t_id u')) as [->|Hn].
  - erewrite tfind_put_same; eauto.
  - rewrite tfind_put_other; eauto.
Qed.

Theorem C16_cancel_stops_everything : forall O c fuel j u,
  reachable O c -> w_faults (cw c) = [] -> In (MJob j) (w_hist (cw c)) -> j_state j = JCancelled ->
  find_job (j_id j) (cw c) = Some u -> reachable_workers (cw c) (j_id j) ->
  exists w' mp ms,
    run (deliver O fuel (MJob j)) (cw c) = (w', Ok tt) /\
    (live (j_state u) -> w_jobs w' = put_job (u <| j_state := JCancelled |>) (w_jobs (cw c))) /\
    (~ live (j_state u) -> w_jobs w' = put_job u (w_jobs (cw c))) /\
    w_tasks w' = cancel_active (j_id j) (w_tasks (cw c)) /\
    published (cw c) w' (mp ++ ms) /\
    notices w' (active_tasks (j_id j) (w_tasks (cw c))) ms /\
    (j_parent j = noid -> mp = []) /\
    (j_parent j <> noid -> exists pt pj, find_task (j_parent j) (cw c) = Some pt /\ find_job (t_job pt) w' = Some pj /\ mp = [MJob (pj <| j_state := JCancelled |>)]).
Proof.
  intros O c fuel j u HR Hf Hin Hst Hu Hw. pose proof (reachable_inv _ _ HR) as HI.
  pose proof (inv_hist _ HI _ Hin) as (Hk & _). set (w := cw c) in *. pose proof (find_job_id _ _ _ Hu) as Hui.
  assert (Hpar : j_parent u = j_parent j).
  { destruct Hk as (u0 & Hu0 & Hd). rewrite Hu in Hu0. injection Hu0 as <-. change (j_parent u) with (j_parent (jdef u)). rewrite Hd. reflexivity. }
  set (u' := if job_live (j_state u) then u <| j_state := JCancelled |> else u).
  assert (Hu'i : j_id u' = j_id u) by (unfold u'; destruct (job_live _); reflexivity).
  set (w1 := w <| w_jobs := put_job u' (w_jobs w) |>).
  assert (E1 : run (update_job (j_id j) (modi (fun u => if job_live (j_state u) then u <| j_state := JCancelled |> else u))) w = (w1, Ok tt))
    by (apply (run_update_job _ _ w u); auto).
  assert (Ep : exists mp, run (if has_id (j_parent j) then
     let* pt := catch (get_task (j_parent j)) (fun _ _ => panic) in
     let* pj := catch (get_job (t_job pt)) (fun _ _ => panic) in
     catch (publish_job (pj <| j_state := JCancelled |>)) (fun _ _ => ret tt)
     else ret tt) w1 = (w1 <| w_hist := w_hist w ++ mp |>, Ok tt) /\ (j_parent j = noid -> mp = []) /\
     (j_parent j <> noid -> exists pt pj, find_task (j_parent j) w = Some pt /\ find_job (t_job pt) w1 = Some pj /\ mp = [MJob (pj <| j_state := JCancelled |>)])).
  { destruct (has_id (j_parent j)) eqn:Eh.
    - apply has_id_true in Eh. destruct (inv_jobs _ HI u (find_job_in _ _ _ Hu)) as [_ Hjp]. unfold job_parent_known in Hjp. rewrite Hpar in Hjp. destruct (Hjp Eh) as (pt & Hpt & _).
      destruct (inv_tasks _ HI pt (find_task_in _ _ _ Hpt)) as (_ & _ & _ & pj & Hpj).
      destruct (find_put_job_some w w1 u' _ _ eq_refl Hpj) as (pj' & Hpj').
      eexists. split; [|split; [intros; contradiction|intros _; exists pt, pj'; auto]].
      rewrite run_bind, run_catch, run_get_task by exact Hf. change (find_task (j_parent j) w1) with (find_task (j_parent j) w). rewrite Hpt.
      rewrite run_bind, run_catch, run_get_job, Hpj' by exact Hf. rewrite run_catch. unfold publish_job. rewrite run_publish by exact Hf. reflexivity.
    - apply has_id_false in Eh. exists []. split; [|auto]. rewrite run_ret. f_equal. apply world_eq; try reflexivity. cbn. now rewrite app_nil_r.
      all: split; [auto|intros; contradiction]. }
  destruct Ep as (mp & Ep & Hmp1 & Hmp2).
  destruct (cancel_active_run (j_id j) (w1 <| w_hist := w_hist w ++ mp |>) w1) as (ms & Hms & Ec).
  { exact Hf. } { exact (inv_task_ids _ HI). } { reflexivity. } { reflexivity. }
  { intros t Ht. destruct (Hw t Ht) as (ms & Hms). eapply notice_transfer; [| |exact Hms]; [reflexivity|]. intros i x Hx. eapply find_put_job_some; eauto. reflexivity. }
  exists (w1 <| w_hist := w_hist w ++ mp |> <| w_tasks := cancel_active (j_id j) (w_tasks w) |> <| w_hist := (w_hist w ++ mp) ++ ms |>), mp, ms.
  split.
  { rewrite deliver_job. unfold job_wrapper. rewrite run_catch. unfold job_handler at 1. rewrite Hst. unfold cancel_handler.
    rewrite run_bind, E1, run_bind, Ep, Ec. reflexivity. }
  split; [intros Hl; cbn; unfold u'; destruct Hl as [-> | ->]; reflexivity|].
  split; [intros Hl; cbn; unfold u'; destruct (j_state u); try reflexivity; exfalso; apply Hl; unfold live; auto|].
  split; [reflexivity|]. split; [unfold published; cbn; now rewrite app_assoc|].
  split; [|split; [exact Hmp1|exact Hmp2]]. eapply notices_ext; [| |exact Hms]; reflexivity.
Qed.
Print Assumptions C16_cancel_stops_everything.
(** no task of the job is left active *)
Theorem C16_nothing_active : forall i l, active_tasks i (cancel_active i l) = [].
Proof.
  intros i l. unfold active_tasks, cancel_active. induction l as [|t l IH]; [reflexivity|]. cbn.
  destruct (N.eqb (t_job t) i && active (t_state t))%bool eqn:E; cbn.
  - rewrite andb_false_r. exact IH.
  - rewrite E. exact IH.
Qed.
Print Assumptions C16_nothing_active.

(** ** C14, C15: handling a failure *)
Lemma live_job_live s : live s <-> job_live s = true.
Proof. unfold live. destruct s; cbn; split; intros H; auto; try discriminate; destruct H; discriminate. Qed.
Lemma may_retry_left t : may_retry t <-> retry_left t = true.
Proof.
  unfold may_retry, retry_left. destruct (t_retry t) as [r|].
  - rewrite Z.ltb_lt. split; [intros (r' & E & H); injection E as <-; auto|eauto].
  - split; [intros (r & E & _); discriminate|discriminate].
Qed.
Lemma failed_update clk t u : (if active (t_state u) then u <| t_state := TFailed |> <| t_failed := Some clk |> <| t_error := t_error t |> else u) = failed_row clk t u.
Proof. reflexivity. Qed.
Lemma failed_row_id clk t u : t_id (failed_row clk t u) = t_id u.
Proof. unfold failed_row. destruct (active _); reflexivity. Qed.

Lemma known_facts w t : Inv w -> task_known w t ->
  exists u j, find_task (t_id t) w = Some u /\ t_id u = t_id t /\ t_job u = t_job t /\ find_job (t_job t) w = Some j /\ j_id j = t_job t.
Proof.
  intros HI (u & Hu & Hab). destruct (inv_tasks _ HI u (find_task_in _ _ _ Hu)) as (_ & _ & _ & j & Hj).
  destruct Hab as (H1 & H2 & _). rewrite H2 in Hj. exists u, j. pose proof (find_job_id _ _ _ Hj). auto.
Qed.

Lemma error_run_retry O w t u j r rt : Inv w -> w_faults w = [] -> find_task (t_id t) w = Some u -> find_job (t_job t) w = Some j ->
  live (j_state j) -> t_retry t = Some r -> r_attempts r < r_limit r ->
  eval_task (o_tmpl O (j_context j) None) (retry_attempt t (w_fresh w) (w_clock w) r) = inl rt ->
  exists w', run (error_handler O t) w = (w', Ok tt) /\
    w_tasks w' = put_task (failed_row (w_clock w) t u) (w_tasks w) ++ [db_task rt] /\ w_jobs w' = w_jobs w /\
    published w w' [MTask QUEUE_PENDING rt].
Proof.
  intros HI Hf Hu Hj Hl Hr Ha Hev. pose proof (find_task_id _ _ _ Hu) as Hui.
  unfold error_handler. rewrite run_bind, run_get_job, Hj, run_bind, run_now, run_with_msg, run_bind by exact Hf.
  set (t1 := t <| t_failed := Some (w_clock w) |>).
  set (w1 := w <| w_tasks := put_task (failed_row (w_clock w) t u) (w_tasks w) |>).
  rewrite (run_update_task (t_id t1) _ w u (failed_row (w_clock w) t u) tt Hf Hu eq_refl). fold w1.
  replace (job_live (j_state j) && retry_left t1)%bool with true.
  2:{ symmetry. apply andb_true_iff. split; [now apply live_job_live|]. apply may_retry_left. exists r. auto. }
  rewrite run_bind, run_now, run_bind, run_new_id.
  change (w_fresh w1) with (w_fresh w). change (w_clock w1) with (w_clock w).
  assert (Er : retry_task t1 (w_fresh w) (w_clock w) = retry_attempt t (w_fresh w) (w_clock w) r).
  { unfold retry_task, retry_attempt, t1. destruct t; cbn in Hr; subst; reflexivity. }
  rewrite Er. unfold evaluate_task. rewrite Hev. rewrite run_bind.
  assert (Hrt : t_id rt = w_fresh w /\ t_job rt = t_job t).
  { apply eval_task_frame in Hev; destruct Hev as (? & ? & ? & ? & ? & ? & ? & ? & ? & ? & ? & -> & _); split; destruct t; reflexivity. }
  destruct Hrt as [Hi Hjb].
  rewrite (run_create_task rt _ j).
  - rewrite run_catch. unfold publish_task. rewrite run_publish by exact Hf. eexists. split; [reflexivity|]. repeat split.
  - exact Hf.
  - rewrite Hi. change (find_task (w_fresh w) w1 = None). destruct (find_task (w_fresh w) w1) as [x|] eqn:Ex; [|reflexivity].
    pose proof (find_task_id _ _ _ Ex) as Hxi. apply find_task_in in Ex. cbn in Ex. apply (in_map t_id) in Ex. rewrite map_id_put_task in Ex.
    apply in_map_iff in Ex as (y & Hy & Hin2). apply (inv_task_fresh _ HI) in Hin2. lia.
  - rewrite Hjb. exact Hj.
Qed.

Theorem C14_retry : forall O c fuel t u j r rt,
  reachable O c -> w_faults (cw c) = [] -> In (MTask QUEUE_ERROR t) (w_hist (cw c)) ->
  find_task (t_id t) (cw c) = Some u -> find_job (t_job t) (cw c) = Some j ->
  live (j_state j) -> t_retry t = Some r -> r_attempts r < r_limit r ->
  eval_task (o_tmpl O (j_context j) None) (retry_attempt t (w_fresh (cw c)) (w_clock (cw c)) r) = inl rt ->
  exists w', run (deliver O fuel (MTask QUEUE_ERROR t)) (cw c) = (w', Ok tt) /\
    w_tasks w' = put_task (failed_row (w_clock (cw c)) t u) (w_tasks (cw c)) ++ [db_task rt] /\
    w_jobs w' = w_jobs (cw c) /\
    published (cw c) w' [MTask QUEUE_PENDING rt] /\
    t_id rt = w_fresh (cw c) /\ t_job rt = t_job t /\ t_parent rt = t_parent t /\ t_position rt = t_position t /\
    t_state rt = TPending /\ t_error rt = "" /\ t_failed rt = None /\ t_retry rt = Some (mkRetry (r_limit r) (r_attempts r + 1)).
Proof.
  intros O c fuel t u j r rt HR Hf Hin Hu Hj Hl Hr Ha Hev.
  destruct (error_run_retry O (cw c) t u j r rt (reachable_inv _ _ HR) Hf Hu Hj Hl Hr Ha Hev) as (w' & E & H1 & H2 & H3).
  exists w'. rewrite deliver_error. unfold task_wrapper. rewrite run_catch, E. split; [reflexivity|]. repeat split; auto;
  apply eval_task_frame in Hev; destruct Hev as (? & ? & ? & ? & ? & ? & ? & ? & ? & ? & ? & -> & _); destruct t; reflexivity.
Qed.
Print Assumptions C14_retry.

(** no attempt left, or the job is over: nothing is created, the job fails, its other work is stopped *)
Lemma error_run_fail O w t u j : Inv w -> w_faults w = [] -> find_task (t_id t) w = Some u -> find_job (t_job t) w = Some j ->
  ~ (live (j_state j) /\ may_retry t) -> j_parent j = noid -> reachable_workers w (t_job t) ->
  exists w' j' ms, run (error_handler O t) w = (w', Ok tt) /\
    let T := put_task (failed_row (w_clock w) t u) (w_tasks w) in
    w_tasks w' = cancel_active (t_job t) T /\ notices w' (active_tasks (t_job t) T) ms /\
    (live (j_state j) -> j' = j <| j_state := JFailed |> <| j_failed := Some (w_clock w) |>) /\ (~ live (j_state j) -> j' = j) /\
    w_jobs w' = put_job j' (w_jobs w) /\
    published w w' (ms ++ if jstate_eqb (j_state j') JFailed then [MEvent "job.failed" j'] else []).
Proof.
  intros HI Hf Hu Hj Hl Hp Hw. pose proof (find_task_id _ _ _ Hu) as Hui. pose proof (find_job_id _ _ _ Hj) as Hji.
  unfold error_handler. rewrite run_bind, run_get_job, Hj, run_bind, run_now, run_with_msg, run_bind by exact Hf.
  set (t1 := t <| t_failed := Some (w_clock w) |>).
  set (w1 := w <| w_tasks := put_task (failed_row (w_clock w) t u) (w_tasks w) |>).
  rewrite (run_update_task (t_id t1) _ w u (failed_row (w_clock w) t u) tt Hf Hu eq_refl). fold w1.
  replace (job_live (j_state j) && retry_left t1)%bool with false.
  2:{ symmetry. apply andb_false_iff. destruct (job_live (j_state j)) eqn:E; [right|auto]. destruct (retry_left t1) eqn:E2; [|auto].
      exfalso. apply Hl. split; [now apply live_job_live|]. apply may_retry_left. exact E2. }
  cbn [t_failed t_error].
  set (jf := j <| j_state := JFailed |> <| j_failed := t_failed t1 |> <| j_error := t_error t1 |>).
  change (job_handler O jf) with (fail_job jf). unfold fail_job.
  set (j' := if job_live (j_state j) then j <| j_state := JFailed |> <| j_failed := Some (w_clock w) |> else j).
  assert (Hj'i : j_id j' = j_id j) by (unfold j'; destruct (job_live _); reflexivity).
  set (w2 := w1 <| w_jobs := put_job j' (w_jobs w) |>).
  assert (E2 : run (update_job (j_id jf) (modi (fun u => if job_live (j_state u) then u <| j_state := JFailed |> <| j_failed := j_failed jf |> else u))) w1 = (w2, Ok tt)).
  { apply (run_update_job _ _ w1 j); [exact Hf| |reflexivity]. change (j_id jf) with (j_id j). rewrite Hji. exact Hj. }
  rewrite run_bind, E2. change (j_parent jf) with (j_parent j). rewrite (proj2 (has_id_false _) Hp).
  change (j_id jf) with (j_id j). rewrite Hji.
  assert (Hnd : NoDup (map t_id (w_tasks w2))) by (cbn; rewrite map_id_put_task; apply (inv_task_ids _ HI)).
  destruct (cancel_active_run (t_job t) w2 w2 Hf Hnd eq_refl eq_refl) as (ms & Hms & Ec).
  { intros x Hx. assert (Hx' : In x (active_tasks (t_job t) (w_tasks w))).
    { unfold active_tasks in *. apply filter_In in Hx as [Hx1 Hx2]. apply filter_In. split; [|exact Hx2]. cbn in Hx1. unfold put_task in Hx1.
      apply in_map_iff in Hx1 as (y & Hy & Hyin). destruct (N.eqb (t_id y) (t_id (failed_row (w_clock w) t u))) eqn:Ey; [|congruence].
      subst x. unfold failed_row in Hx2 |- *. destruct (active (t_state u)) eqn:Eu; [cbn in Hx2; rewrite andb_false_r in Hx2; discriminate|rewrite Eu, andb_false_r in Hx2; discriminate]. }
    destruct (Hw x Hx') as (m & Hm). eapply notice_transfer; [| |exact Hm]; [reflexivity|]. intros i y Hy. eapply find_put_job_some; [|exact Hy]. reflexivity. }
  rewrite run_bind, Ec. set (w3 := w2 <| w_tasks := _ |> <| w_hist := _ |>).
  assert (Hj3 : find_job (t_job t) w3 = Some j').
  { rewrite <- Hji. rewrite <- Hji in Hj. exact (proj1 (put_job_effect w w3 j j' Hj Hj'i eq_refl)). }
  rewrite run_bind, run_get_job, Hj3 by exact Hf.
  assert (Hfin : exists w', run (if jstate_eqb (j_state j') JFailed then publish_event TOPIC_JOB_FAILED j' else ret tt) w3 = (w', Ok tt) /\
     w_tasks w' = w_tasks w3 /\ w_jobs w' = w_jobs w3 /\ w_nodes w' = w_nodes w3 /\ w_hist w' = w_hist w3 ++ if jstate_eqb (j_state j') JFailed then [MEvent "job.failed" j'] else []).
  { destruct (jstate_eqb (j_state j') JFailed).
    - unfold publish_event. rewrite run_publish by exact Hf. eexists. split; [reflexivity|]. repeat split.
    - rewrite run_ret. eexists. split; [reflexivity|]. rewrite app_nil_r. auto. }
  destruct Hfin as (w' & Ew & F1 & F2 & F3 & F4). rewrite Ew. exists w', j', ms. split; [reflexivity|]. cbn zeta.
  split; [rewrite F1; reflexivity|]. split; [eapply notices_ext; [| |exact Hms]; [rewrite F2|rewrite F3]; reflexivity|].
  split; [intros H; unfold j'; apply live_job_live in H; now rewrite H|].
  split; [intros H; unfold j'; destruct (job_live (j_state j)) eqn:E; [apply live_job_live in E; contradiction|reflexivity]|].
  split; [rewrite F2; reflexivity|]. unfold published. rewrite F4. cbn. now rewrite <- app_assoc.
Qed.

Theorem C14_C15_failure_fails_job : forall O c fuel t u j,
  reachable O c -> w_faults (cw c) = [] -> In (MTask QUEUE_ERROR t) (w_hist (cw c)) ->
  find_task (t_id t) (cw c) = Some u -> find_job (t_job t) (cw c) = Some j ->
  ~ (live (j_state j) /\ may_retry t) -> j_parent j = noid -> reachable_workers (cw c) (t_job t) ->
  exists w' j' ms, run (deliver O fuel (MTask QUEUE_ERROR t)) (cw c) = (w', Ok tt) /\
    let T := put_task (failed_row (w_clock (cw c)) t u) (w_tasks (cw c)) in
    w_tasks w' = cancel_active (t_job t) T /\ notices w' (active_tasks (t_job t) T) ms /\
    (live (j_state j) -> j' = j <| j_state := JFailed |> <| j_failed := Some (w_clock (cw c)) |>) /\ (~ live (j_state j) -> j' = j) /\
    w_jobs w' = put_job j' (w_jobs (cw c)) /\
    published (cw c) w' (ms ++ if jstate_eqb (j_state j') JFailed then [MEvent "job.failed" j'] else []).
Proof.
  intros O c fuel t u j HR Hf Hin Hu Hj Hl Hp Hw.
  destruct (error_run_fail O (cw c) t u j (reachable_inv _ _ HR) Hf Hu Hj Hl Hp Hw) as (w' & j' & ms & E & H).
  exists w', j', ms. rewrite deliver_error. unfold task_wrapper. rewrite run_catch, E. auto.
Qed.
Print Assumptions C14_C15_failure_fails_job.

(** an attached sub-job that fails reports to its parent task (and does nothing else: its other tasks are left alone) *)
Theorem C22_subjob_failure_is_reported : forall O c fuel t u j,
  reachable O c -> w_faults (cw c) = [] -> In (MTask QUEUE_ERROR t) (w_hist (cw c)) ->
  find_task (t_id t) (cw c) = Some u -> find_job (t_job t) (cw c) = Some j ->
  ~ (live (j_state j) /\ may_retry t) -> j_parent j <> noid ->
  exists w' j' pt, run (deliver O fuel (MTask QUEUE_ERROR t)) (cw c) = (w', Ok tt) /\
    w_tasks w' = put_task (failed_row (w_clock (cw c)) t u) (w_tasks (cw c)) /\
    (live (j_state j) -> j' = j <| j_state := JFailed |> <| j_failed := Some (w_clock (cw c)) |>) /\ (~ live (j_state j) -> j' = j) /\
    w_jobs w' = put_job j' (w_jobs (cw c)) /\
    find_task (j_parent j) w' = Some pt /\
    published (cw c) w' [MTask QUEUE_ERROR (pt <| t_state := TFailed |> <| t_failed := Some (w_clock (cw c)) |> <| t_error := t_error t |>)].
Proof.
  intros O c fuel t u j HR Hf Hin Hu Hj Hl Hp. pose proof (reachable_inv _ _ HR) as HI. set (w := cw c) in *.
  pose proof (find_task_id _ _ _ Hu) as Hui. pose proof (find_job_id _ _ _ Hj) as Hji.
  rewrite deliver_error. unfold task_wrapper. rewrite run_catch.
  unfold error_handler at 1. rewrite run_bind, run_get_job, Hj, run_bind, run_now, run_with_msg, run_bind by exact Hf.
  set (t1 := t <| t_failed := Some (w_clock w) |>).
  set (w1 := w <| w_tasks := put_task (failed_row (w_clock w) t u) (w_tasks w) |>).
  rewrite (run_update_task (t_id t1) _ w u (failed_row (w_clock w) t u) tt Hf Hu eq_refl). fold w1.
  replace (job_live (j_state j) && retry_left t1)%bool with false.
  2:{ symmetry. apply andb_false_iff. destruct (job_live (j_state j)) eqn:E; [right|auto]. destruct (retry_left t1) eqn:E2; [|auto].
      exfalso. apply Hl. split; [now apply live_job_live|]. apply may_retry_left. exact E2. }
  set (jf := j <| j_state := JFailed |> <| j_failed := t_failed t1 |> <| j_error := t_error t1 |>).
  change (job_handler O jf) with (fail_job jf). unfold fail_job.
  set (j' := if job_live (j_state j) then j <| j_state := JFailed |> <| j_failed := Some (w_clock w) |> else j).
  set (w2 := w1 <| w_jobs := put_job j' (w_jobs w) |>).
  assert (E2 : run (update_job (j_id jf) (modi (fun u => if job_live (j_state u) then u <| j_state := JFailed |> <| j_failed := j_failed jf |> else u))) w1 = (w2, Ok tt)).
  { apply (run_update_job _ _ w1 j); [exact Hf| |reflexivity]. change (j_id jf) with (j_id j). rewrite Hji. exact Hj. }
  rewrite run_bind, E2. change (j_parent jf) with (j_parent j). rewrite (proj2 (has_id_true _) Hp).
  destruct (inv_jobs _ HI j (find_job_in _ _ _ Hj)) as [_ Hjp]. destruct (Hjp Hp) as (pt0 & Hpt0 & _).
  assert (Hpt : exists pt, find_task (j_parent j) w2 = Some pt).
  { exact (find_put_task_some w w2 (failed_row (w_clock w) t u) _ _ eq_refl Hpt0). }
  destruct Hpt as (pt & Hpt). rewrite run_bind, run_get_task, Hpt by exact Hf. unfold publish_task. rewrite run_publish by exact Hf.
  eexists. exists j', pt. split; [reflexivity|]. split; [reflexivity|].
  split; [intros H; unfold j'; apply live_job_live in H; now rewrite H|].
  split; [intros H; unfold j'; destruct (job_live (j_state j)) eqn:E; [apply live_job_live in E; contradiction|reflexivity]|].
  split; [reflexivity|]. split; [exact Hpt|]. reflexivity.
Qed.
Print Assumptions C22_subjob_failure_is_reported.

(** ** C17, C18: start reports *)
Theorem C17_late_start_is_cancelled : forall O c fuel t j n,
  w_faults (cw c) = [] -> find_job (t_job t) (cw c) = Some j -> ~ live (j_state j) -> find_node (t_node t) (cw c) = Some n ->
  exists w', run (deliver O fuel (MTask QUEUE_STARTED t)) (cw c) = (w', Ok tt) /\
    w_tasks w' = w_tasks (cw c) /\ w_jobs w' = w_jobs (cw c) /\
    published (cw c) w' [MTask (n_queue n) (t <| t_state := TCancelled |>)].
Proof.
  intros O c fuel t j n Hf Hj Hl Hn. rewrite deliver_started. unfold task_wrapper. rewrite run_catch. unfold started_handler.
  rewrite run_bind, run_get_job, Hj by exact Hf. replace (negb (job_live (j_state j))) with true.
  2:{ symmetry. apply negb_true_iff. destruct (job_live (j_state j)) eqn:E; [apply live_job_live in E; contradiction|reflexivity]. }
  rewrite run_with_msg, run_bind, run_get_node by exact Hf.
  change (find_node (t_node (t <| t_state := TCancelled |>)) (cw c)) with (find_node (t_node t) (cw c)). rewrite Hn.
  unfold publish_task. rewrite run_publish by exact Hf. eexists. split; [reflexivity|]. repeat split.
Qed.
Print Assumptions C17_late_start_is_cancelled.

(** what a start report does to the row *)
Definition started_row (clk : time) (t u : task) : task :=
  (if tstate_eqb (t_state u) TScheduled then u <| t_state := TRunning |> <| t_started := Some clk |> else u) <| t_node := t_node t |>.
Theorem C18_start_report : forall O c fuel t u j,
  w_faults (cw c) = [] -> find_task (t_id t) (cw c) = Some u -> find_job (t_job t) (cw c) = Some j -> live (j_state j) ->
  exists w' u', run (deliver O fuel (MTask QUEUE_STARTED t)) (cw c) = (w', Ok tt) /\
    w_tasks w' = put_task u' (w_tasks (cw c)) /\ published (cw c) w' [] /\
    (t_state u = TScheduled -> u' = u <| t_state := TRunning |> <| t_started := Some (w_clock (cw c)) |> <| t_node := t_node t |>) /\
    (t_state u <> TScheduled -> u' = u <| t_node := t_node t |>) /\
    (j_state j = JScheduled -> w_jobs w' = put_job (j <| j_state := JRunning |> <| j_failed := None |>) (w_jobs (cw c))) /\
    (j_state j = JRunning -> w_jobs w' = w_jobs (cw c)).
Proof.
  intros O c fuel t u j Hf Hu Hj Hl. set (w := cw c) in *. pose proof (find_job_id _ _ _ Hj) as Hji.
  rewrite deliver_started. unfold task_wrapper. rewrite run_catch. unfold started_handler.
  rewrite run_bind, run_get_job, Hj by exact Hf. rewrite (proj1 (live_job_live _) Hl). cbn [negb].
  set (jn := if jstate_eqb (j_state j) JScheduled then put_job (j <| j_state := JRunning |> <| j_failed := None |>) (w_jobs w) else w_jobs w).
  set (w1 := w <| w_jobs := jn |>).
  assert (E1 : run (if jstate_eqb (j_state j) JScheduled then job_handler O (j <| j_state := JRunning |>) else ret tt) w = (w1, Ok tt)).
  { unfold w1, jn. destruct Hl as [E|E]; rewrite E; cbn [jstate_eqb].
    - change (job_handler O (j <| j_state := JRunning |>)) with (mark_running (j <| j_state := JRunning |>)). unfold mark_running.
      apply (run_update_job _ _ w j); [exact Hf|change (j_id (j <| j_state := JRunning |>)) with (j_id j); rewrite Hji; exact Hj|].
      unfold modi. rewrite E. reflexivity.
    - rewrite run_ret. f_equal. apply world_eq; reflexivity. }
  rewrite run_bind, E1, run_bind, run_now. change (w_clock w1) with (w_clock w).
  rewrite (run_update_task (t_id t) _ w1 u (started_row (w_clock w) t u) tt Hf Hu eq_refl).
  eexists. exists (started_row (w_clock w) t u). split; [reflexivity|]. split; [reflexivity|].
  split; [unfold published; rewrite app_nil_r; reflexivity|].
  split; [intros E; unfold started_row; rewrite E; reflexivity|].
  split; [intros E; unfold started_row; destruct (t_state u); try reflexivity; contradiction|].
  split; intros E; cbn; unfold jn; rewrite E; reflexivity.
Qed.
Print Assumptions C18_start_report.

(** ** C25 *)
Theorem C25_redelivery : forall O fuel w t, w_faults w = [] ->
  exists w', run (deliver O fuel (MTask QUEUE_REDELIVERIES t)) w = (w', Ok tt) /\
    w_tasks w' = w_tasks w /\ w_jobs w' = w_jobs w /\
    (t_redelivered t < 5 -> published w w' [MTask (t_queue t) (t <| t_redelivered := t_redelivered t + 1 |>)]) /\
    (5 <= t_redelivered t -> published w w' [MTask QUEUE_ERROR (t <| t_error := "task redelivered too many times" |> <| t_failed := Some (w_clock w) |> <| t_state := TFailed |>)]).
Proof.
  intros O fuel w t Hf. rewrite deliver_redelivered. unfold redelivered_handler, max_redeliveries.
  destruct (5 <=? t_redelivered t) eqn:E.
  - apply Z.leb_le in E. rewrite run_bind, run_now. unfold publish_task. rewrite run_publish by exact Hf.
    eexists. split; [reflexivity|]. split; [reflexivity|]. split; [reflexivity|]. split; intros; [lia|reflexivity].
  - apply Z.leb_gt in E. unfold publish_task. rewrite run_publish by exact Hf.
    eexists. split; [reflexivity|]. split; [reflexivity|]. split; [reflexivity|]. split; intros; [reflexivity|lia].
Qed.
Print Assumptions C25_redelivery.

(** ** C58 *)
(** a percentage clamped to 0..100 (in hundredths) *)
Definition clamped (p q : Z) : Prop := 0 <= q <= 10000 /\ (0 <= p <= 10000 -> q = p) /\ (p < 0 -> q = 0) /\ (10000 < p -> q = 10000).
Lemma clamp_spec p : clamped p (clamp_progress p).
Proof.
  unfold clamped, clamp_progress. destruct (p <? 0) eqn:E1; [apply Z.ltb_lt in E1|apply Z.ltb_ge in E1; destruct (10000 <? p) eqn:E2; [apply Z.ltb_lt in E2|apply Z.ltb_ge in E2]]; lia.
Qed.
Theorem C58_progress_report : forall O c fuel t u j,
  w_faults (cw c) = [] -> find_task (t_id t) (cw c) = Some u -> find_job (t_job t) (cw c) = Some j ->
  0 < j_taskcount j -> 1 <= j_position j ->
  exists w' p q, run (deliver O fuel (MProgress t)) (cw c) = (w', Ok tt) /\ published (cw c) w' [] /\
    clamped (t_progress t) p /\ rounds_to ((j_position j - 1) * 10000 + p) (j_taskcount j) q /\
    w_tasks w' = put_task (u <| t_progress := p |>) (w_tasks (cw c)) /\
    w_jobs w' = put_job (j <| j_progress := q |>) (w_jobs (cw c)) /\
    (j_position j <= j_taskcount j -> 0 <= q <= 10000).
Proof.
  intros O c fuel t u j Hf Hu Hj Hc Hp. set (w := cw c) in *.
  rewrite deliver_progress. unfold task_wrapper. rewrite run_catch. unfold progress_handler. rewrite run_with_msg, run_bind.
  pose proof (clamp_spec (t_progress t)) as Hcl.
  set (p := clamp_progress (t_progress t)) in *. set (t1 := t <| t_progress := p |>).
  rewrite (run_update_task (t_id t1) _ w u (u <| t_progress := p |>) tt Hf Hu eq_refl).
  rewrite run_bind, run_get_job by exact Hf. change (find_job (t_job t1) _) with (find_job (t_job t) w). rewrite Hj.
  destruct (j_taskcount j =? 0) eqn:E; [apply Z.eqb_eq in E; lia|]. change (t_progress t1) with p.
  assert (Hr : rounds_to ((j_position j - 1) * 10000 + p) (j_taskcount j) (job_progress (j_position j) (j_taskcount j) p)).
  { apply round_div_spec; destruct Hcl; lia. }
  erewrite run_update_job; [|exact Hf|exact Hj|reflexivity].
  eexists. exists p, (job_progress (j_position j) (j_taskcount j) p). split; [reflexivity|]. split; [unfold published; now rewrite app_nil_r|].
  split; [exact Hcl|]. split; [exact Hr|]. split; [reflexivity|]. split; [reflexivity|]. intros Hle. unfold rounds_to in Hr. destruct Hcl. nia.
Qed.
Print Assumptions C58_progress_report.

(** [reachable_workers] as a computation *)
Definition told (w : world) (t : task) : bool :=
  match has_subjob t with
  | Some i => match find_job i w with Some _ => true | None => false end
  | None => if N.eqb (t_node t) noid then true else match find_node (t_node t) w with Some _ => true | None => false end
  end.
Lemma workers_told w i : forallb (told w) (active_tasks i (w_tasks w)) = true -> reachable_workers w i.
Proof.
  intros H t Ht. rewrite forallb_forall in H. specialize (H t Ht). unfold told in H.
  destruct (has_subjob t) eqn:E1; [destruct (find_job i0 w) eqn:E2; [|discriminate]; eexists; eapply notice_subjob; eauto|].
  destruct (N.eqb (t_node t) noid) eqn:E2; [apply N.eqb_eq in E2; eexists; now apply notice_none|]. apply N.eqb_neq in E2.
  destruct (find_node (t_node t) w) eqn:E3; [|discriminate]. eexists. eapply notice_node; eauto.
Qed.

(** ** The hypotheses are met *)
Definition a_node : node := mkNode 77%N "w" 0 0 0 "x-77" NUp "h" 1 0 "v".
Definition retrying : task := simple "a" <| t_retry := Some (mkRetry 2 0) |>.
(** the first task of a job runs on a known node *)
Definition running (d : job) : list cmd :=
  [CApi (OSubmit d); CRun 0 100; CDeliver 0; CRun 1 100; CHeartbeat a_node; CDeliver 2; CRun 2 100; CStart 1 77%N; CDeliver 3; CRun 3 100].

Example C14_retry_nonvacuous : exists c t u j r rt, reachable O0 c /\ w_faults (cw c) = [] /\ In (MTask QUEUE_ERROR t) (w_hist (cw c)) /\
  find_task (t_id t) (cw c) = Some u /\ find_job (t_job t) (cw c) = Some j /\ live (j_state j) /\ t_retry t = Some r /\ r_attempts r < r_limit r /\
  eval_task (o_tmpl O0 (j_context j) None) (retry_attempt t (w_fresh (cw c)) (w_clock (cw c)) r) = inl rt.
Proof.
  exists (sim_c O0 start (running (demo_job [retrying]) ++ [CFail 1 "boom"])). do 5 eexists.
  split; [apply sim_c_reachable; [cmds|reflexivity]|]. split; [reflexivity|]. split; [vm_compute; do 4 right; left; reflexivity|].
  split; [vm_compute; reflexivity|]. split; [vm_compute; reflexivity|]. split; [now right|]. split; [vm_compute; reflexivity|]. split; [reflexivity|]. vm_compute. reflexivity.
Qed.
Example C14_C15_nonvacuous : exists c t u j, reachable O0 c /\ w_faults (cw c) = [] /\ In (MTask QUEUE_ERROR t) (w_hist (cw c)) /\
  find_task (t_id t) (cw c) = Some u /\ find_job (t_job t) (cw c) = Some j /\ live (j_state j) /\
  ~ (live (j_state j) /\ may_retry t) /\ j_parent j = noid /\ reachable_workers (cw c) (t_job t).
Proof.
  exists (sim_c O0 start (running two_tasks ++ [CFail 1 "boom"])). do 3 eexists.
  split; [apply sim_c_reachable; [cmds|reflexivity]|]. split; [reflexivity|]. split; [vm_compute; do 4 right; left; reflexivity|].
  split; [vm_compute; reflexivity|]. split; [vm_compute; reflexivity|]. split; [now right|].
  split; [intros [_ (r & Hr & _)]; discriminate|]. split; [reflexivity|].
  apply workers_told. vm_compute. reflexivity.
Qed.
Example C16_nonvacuous : exists c j u, reachable O0 c /\ w_faults (cw c) = [] /\ In (MJob j) (w_hist (cw c)) /\ j_state j = JCancelled /\
  find_job (j_id j) (cw c) = Some u /\ live (j_state u) /\ reachable_workers (cw c) (j_id j) /\ active_tasks (j_id j) (w_tasks (cw c)) <> [].
Proof.
  exists (sim_c O0 start (running two_tasks ++ [CApi (OCancel 1%N); CRun 4 100])). do 2 eexists.
  split; [apply sim_c_reachable; [cmds|reflexivity]|]. split; [reflexivity|]. split; [vm_compute; do 4 right; left; reflexivity|].
  split; [reflexivity|]. split; [vm_compute; reflexivity|]. split; [now right|]. split; [|vm_compute; discriminate].
  apply workers_told. vm_compute. reflexivity.
Qed.
Example C17_nonvacuous : exists c t j n, reachable O0 c /\ w_faults (cw c) = [] /\ In (MTask QUEUE_STARTED t) (w_hist (cw c)) /\
  find_job (t_job t) (cw c) = Some j /\ ~ live (j_state j) /\ find_node (t_node t) (cw c) = Some n.
Proof.
  exists (sim_c O0 start (running two_tasks ++ [CApi (OCancel 1%N); CRun 4 100; CDeliver 4; CRun 5 100])). do 3 eexists.
  split; [apply sim_c_reachable; [cmds|reflexivity]|]. split; [reflexivity|]. split; [vm_compute; do 3 right; left; reflexivity|].
  split; [vm_compute; reflexivity|]. split; [intros [H|H]; discriminate|]. vm_compute. reflexivity.
Qed.
(** a start report arriving again after the task's completion *)
Example C18_nonvacuous : exists c t u j, reachable O0 c /\ w_faults (cw c) = [] /\ In (MTask QUEUE_STARTED t) (w_hist (cw c)) /\
  find_task (t_id t) (cw c) = Some u /\ find_job (t_job t) (cw c) = Some j /\ live (j_state j) /\ t_state u = TCompleted.
Proof.
  exists (sim_c O0 start (running two_tasks ++ [CComplete 1 "r"; CDeliver 4; CRun 4 100])). do 3 eexists.
  split; [apply sim_c_reachable; [cmds|reflexivity]|]. split; [reflexivity|]. split; [vm_compute; do 3 right; left; reflexivity|].
  split; [vm_compute; reflexivity|]. split; [vm_compute; reflexivity|]. split; [now right|]. reflexivity.
Qed.
Definition sub_failing : task := blank_task <| t_name := "sub" |> <| t_subjob := Some (mkSubJob noid "s" "" [simple "x"] [] [] None "" false []) |>.
Example C22_failure_nonvacuous : exists c t u j, reachable O0 c /\ w_faults (cw c) = [] /\ In (MTask QUEUE_ERROR t) (w_hist (cw c)) /\
  find_task (t_id t) (cw c) = Some u /\ find_job (t_job t) (cw c) = Some j /\ ~ (live (j_state j) /\ may_retry t) /\ j_parent j <> noid.
Proof.
  exists (sim_c O0 start [CApi (OSubmit (demo_job [sub_failing])); CRun 0 100; CDeliver 0; CRun 1 100; CDeliver 1; CRun 2 100; CFail 2 "boom"]). do 3 eexists.
  split; [apply sim_c_reachable; [cmds|reflexivity]|]. split; [reflexivity|]. split; [vm_compute; do 3 right; left; reflexivity|].
  split; [vm_compute; reflexivity|]. split; [vm_compute; reflexivity|]. split; [intros [_ (r & Hr & _)]; discriminate|]. discriminate.
Qed.
Example C58_nonvacuous : exists c t u j, reachable O0 c /\ w_faults (cw c) = [] /\ In (MProgress t) (w_hist (cw c)) /\
  find_task (t_id t) (cw c) = Some u /\ find_job (t_job t) (cw c) = Some j /\ 0 < j_taskcount j /\ 1 <= j_position j /\ t_progress t = 20000.
Proof.
  exists (sim_c O0 start (running two_tasks ++ [CProgress 1 20000])). do 3 eexists.
  split; [apply sim_c_reachable; [cmds|reflexivity]|]. split; [reflexivity|]. split; [vm_compute; do 4 right; left; reflexivity|].
  split; [vm_compute; reflexivity|]. split; [vm_compute; reflexivity|]. split; [reflexivity|]. split; [vm_compute; discriminate|reflexivity].
Qed.
