(** Property theorems about scheduling one task: C19, C20, C21. *)
From Verif Require Import SeqTools Sim InvSched.
Open Scope string_scope.
Open Scope list_scope.
Open Scope Z_scope.

Lemma orelse_first a b : orelse a b = first_set [a; b].
Proof. destruct a, b; reflexivity. Qed.
Lemma orelse_first3 a b c : orelse (orelse a b) c = first_set [a; b; c].
Proof. destruct a, b, c; reflexivity. Qed.

(** ** C20 *)
(** the defaults, one field at a time *)
Definition fill_limits (dl : option limits) (l : option limits) : option limits :=
  match dl with
  | None => l
  | Some dl => let l := match l with Some l => l | None => mkLimits "" "" end in
               Some (mkLimits (orelse (l_cpus l) (l_cpus dl)) (orelse (l_memory l) (l_memory dl)))
  end.
Definition fill_retry (dr : option retry) (r : option retry) : option retry :=
  match dr with
  | None => r
  | Some dr => let r := match r with Some r => r | None => mkRetry 0 0 end in
               Some (if r_limit r =? 0 then mkRetry (r_limit dr) (r_attempts r) else r)
  end.
Lemma apply_defaults_proj j t :
  let d := defaults_of j in let t' := apply_defaults j t in
  t_queue t' = first_set [t_queue t; d_queue d; "default"] /\
  t_limits t' = fill_limits (d_limits d) (t_limits t) /\
  t_timeout t' = first_set [t_timeout t; d_timeout d] /\
  t_retry t' = fill_retry (d_retry d) (t_retry t) /\
  t_priority t' = first_nonzero (t_priority t) (d_priority d).
Proof.
  cbn zeta. unfold apply_defaults, defaults_of.
  destruct (j_defaults j) as [[dr dl dt dq dp]|].
  2:{ repeat split; cbn.
      - destruct (t_queue t); reflexivity.
      - destruct (t_timeout t); reflexivity.
      - unfold first_nonzero. destruct (t_priority t =? 0) eqn:E; [apply Z.eqb_eq in E; auto|auto]. }
  cbn zeta. cbn [d_queue d_limits d_timeout d_retry d_priority]. unfold QUEUE_DEFAULT.
  set (t1 := t <| t_queue := orelse (t_queue t) dq |>).
  assert (H1 : t_queue t1 = orelse (t_queue t) dq /\ t_limits t1 = t_limits t /\ t_timeout t1 = t_timeout t /\ t_retry t1 = t_retry t /\ t_priority t1 = t_priority t) by (cbn; auto).
  clearbody t1. destruct H1 as (Q1 & L1 & M1 & R1 & P1).
  match goal with |- context [match dl with None => t1 | Some _ => _ end] => set (t2 := match dl with None => t1 | Some _ => _ end) end.
  assert (H2 : t_queue t2 = orelse (t_queue t) dq /\ t_limits t2 = fill_limits dl (t_limits t) /\ t_timeout t2 = t_timeout t /\ t_retry t2 = t_retry t /\ t_priority t2 = t_priority t).
  { unfold t2. destruct dl; cbn; rewrite ?L1; auto. }
  clearbody t2. destruct H2 as (Q2 & L2 & M2 & R2 & P2). clear t1 Q1 L1 M1 R1 P1.
  set (t3 := t2 <| t_timeout := orelse (t_timeout t2) dt |>).
  assert (H3 : t_queue t3 = orelse (t_queue t) dq /\ t_limits t3 = fill_limits dl (t_limits t) /\ t_timeout t3 = orelse (t_timeout t) dt /\ t_retry t3 = t_retry t /\ t_priority t3 = t_priority t) by (cbn; rewrite M2; auto).
  clearbody t3. destruct H3 as (Q3 & L3 & M3 & R3 & P3). clear t2 Q2 L2 M2 R2 P2.
  match goal with |- context [match dr with None => t3 | Some _ => _ end] => set (t4 := match dr with None => t3 | Some _ => _ end) end.
  assert (H4 : t_queue t4 = orelse (t_queue t) dq /\ t_limits t4 = fill_limits dl (t_limits t) /\ t_timeout t4 = orelse (t_timeout t) dt /\ t_retry t4 = fill_retry dr (t_retry t) /\ t_priority t4 = t_priority t).
  { unfold t4. destruct dr; cbn; rewrite ?R3; auto. }
  clearbody t4. destruct H4 as (Q4 & L4 & M4 & R4 & P4). clear t3 Q3 L3 M3 R3 P3.
  set (t5 := if t_priority t4 =? 0 then t4 <| t_priority := dp |> else t4).
  assert (H5 : t_queue t5 = orelse (t_queue t) dq /\ t_limits t5 = fill_limits dl (t_limits t) /\ t_timeout t5 = orelse (t_timeout t) dt /\ t_retry t5 = fill_retry dr (t_retry t) /\ t_priority t5 = first_nonzero (t_priority t) dp).
  { unfold t5, first_nonzero. rewrite P4. destruct (t_priority t =? 0); cbn; auto. }
  clearbody t5. destruct H5 as (Q5 & L5 & M5 & R5 & P5). cbn [t_queue t_limits t_timeout t_retry t_priority RecordSet.set].
  rewrite <- orelse_first3, <- orelse_first. repeat split; try assumption. change (orelse (t_queue t5) "default" = orelse (orelse (t_queue t) dq) "default"). now rewrite Q5.
Qed.
Lemma fill_limits_spec dl l :
  cpus_of (fill_limits dl l) = first_set [cpus_of l; cpus_of dl] /\ memory_of (fill_limits dl l) = first_set [memory_of l; memory_of dl].
Proof.
  destruct dl as [[dc dm]|], l as [[c m]|]; cbn [fill_limits cpus_of memory_of l_cpus l_memory]; rewrite ?orelse_first; auto; split;
  match goal with |- _ = first_set [?s; _] => destruct s end; reflexivity.
Qed.
Lemma fill_retry_spec dr r :
  retry_limit_of (fill_retry dr r) = first_nonzero (retry_limit_of r) (retry_limit_of dr) /\ attempts_of (fill_retry dr r) = attempts_of r.
Proof.
  destruct dr as [[a b]|], r as [[c d]|]; cbn; unfold first_nonzero; cbn; auto.
  - destruct (c =? 0); auto.
  - destruct (c =? 0) eqn:E; auto. apply Z.eqb_eq in E; subst; auto.
Qed.
Lemma apply_defaults_resolved j t : resolved j t (apply_defaults j t).
Proof.
  unfold resolved. destruct (apply_defaults_proj j t) as (Q & L & M & R & P).
  pose proof (apply_defaults_frame j t) as F. cbn zeta. rewrite Q, L, M, R, P.
  pose proof (fill_limits_spec (d_limits (defaults_of j)) (t_limits t)) as [L1 L2].
  pose proof (fill_retry_spec (d_retry (defaults_of j)) (t_retry t)) as [R1 R2].
  repeat split; try assumption. unfold sched_frame in F. rewrite F. reflexivity.
Qed.

Theorem C20_defaults_fill_only_gaps : forall j t, resolved j t (apply_defaults j t).
Proof. exact apply_defaults_resolved. Qed.
Print Assumptions C20_defaults_fill_only_gaps.

(** non-vacuity: a job with defaults, a task with and one without its own settings *)
Definition df_job : job := blank_job <| j_defaults := Some (mkDefaults (Some (mkRetry 3 0)) (Some (mkLimits "2" "1g")) "5m" "gpu" 4) |>.
Example C20_nonvacuous :
  let t' := apply_defaults df_job (simple "a" <| t_limits := Some (mkLimits "" "8g") |> <| t_timeout := "1m" |>) in
  t_queue t' = "gpu" /\ t_limits t' = Some (mkLimits "2" "8g") /\ t_timeout t' = "1m" /\ t_retry t' = Some (mkRetry 3 0) /\ t_priority t' = 4.
Proof. vm_compute. auto 10. Qed.

(** ** C19 *)
Lemma srev_app_acc s : forall acc, srev_app s acc = (srev_app s "" ++ acc)%string.
Proof.
  induction s as [|c s IH]; intros acc; cbn; [reflexivity|]. rewrite IH. rewrite (IH (String c "")).
  clear IH. induction (srev_app s ""); cbn; [reflexivity|now f_equal].
Qed.
Lemma sapp_assoc (a b c : string) : ((a ++ b) ++ c = a ++ (b ++ c))%string.
Proof. induction a; cbn; [reflexivity|now f_equal]. Qed.
Lemma sapp_nil (a : string) : (a ++ "" = a)%string.
Proof. induction a; cbn; [reflexivity|now f_equal]. Qed.
Lemma srev_cons c s : srev (String c s) = (srev s ++ String c "")%string.
Proof. unfold srev. cbn. apply srev_app_acc. Qed.
Lemma srev_sapp a b : srev (a ++ b) = (srev b ++ srev a)%string.
Proof.
  induction a as [|c a IH]; cbn [String.append].
  - change (srev "") with "". now rewrite sapp_nil.
  - rewrite !srev_cons, IH. now rewrite sapp_assoc.
Qed.
Lemma srev_srev s : srev (srev s) = s.
Proof. induction s as [|c s IH]; [reflexivity|]. rewrite srev_cons, srev_sapp, IH. reflexivity. Qed.
Lemma spaces_app a b : spaces (a ++ b) <-> spaces a /\ spaces b.
Proof. induction a; cbn; tauto. Qed.
Lemma spaces_srev a : spaces (srev a) <-> spaces a.
Proof. induction a as [|c a IH]; [reflexivity|]. rewrite srev_cons, spaces_app, IH. cbn. tauto. Qed.
Lemma white_space c : is_space c = true <-> white c.
Proof.
  unfold is_space, white. cbn [In]. set (n := Ascii.nat_of_ascii c). clearbody n. split.
  - do 33 (destruct n as [|n]; [first [discriminate | intros _; tauto]|]). discriminate.
  - intros H. repeat destruct H as [<-|H]; try reflexivity. contradiction.
Qed.
Lemma trim_left_split s : exists a, spaces a /\ s = (a ++ trim_left s)%string.
Proof.
  induction s as [|c s IH]; [exists ""; cbn; auto|]. cbn. destruct (is_space c) eqn:E.
  - destruct IH as (a & Ha & Hs). exists (String c a). cbn. apply white_space in E. split; [auto|]. now rewrite <- Hs.
  - exists "". cbn. auto.
Qed.
Lemma trim_left_spaces a s : spaces a -> trim_left (a ++ s) = trim_left s.
Proof. induction a as [|c a IH]; cbn; [auto|]. intros [E H]. apply white_space in E. rewrite E. auto. Qed.
Lemma trim_false s : trim_space s = "false" <-> false_padded s.
Proof.
  unfold trim_space, false_padded. split.
  - intros H. destruct (trim_left_split s) as (a & Ha & Es).
    destruct (trim_left_split (srev (trim_left s))) as (b & Hb & Eb).
    assert (E : trim_left (srev (trim_left s)) = srev "false") by (rewrite <- H; now rewrite srev_srev).
    rewrite E in Eb. assert (E2 : trim_left s = ("false" ++ srev b)%string).
    { rewrite <- (srev_srev (trim_left s)), Eb, srev_sapp. reflexivity. }
    exists a, (srev b). rewrite spaces_srev. rewrite <- E2. auto.
  - intros (a & b & Ha & Hb & ->). rewrite trim_left_spaces by auto.
    change (trim_left ("false" ++ b)) with ("false" ++ b)%string.
    rewrite srev_sapp, trim_left_spaces by now apply spaces_srev. reflexivity.
Qed.

(** Alone and without faults: the task is recorded SKIPPED, its completion is announced, nothing else happens. *)
Theorem C19_false_is_skipped : forall O fuel w t u,
  w_faults w = [] -> false_padded (t_if t) -> find_task (t_id t) w = Some u ->
  exists w' u' t',
    run (deliver O fuel (MTask QUEUE_PENDING t)) w = (w', Ok tt) /\
    published w w' [MTask QUEUE_COMPLETED t'] /\ t_id t' = t_id t /\ t_job t' = t_job t /\ t_state t' = TSkipped /\
    find_task (t_id t) w' = Some u' /\ t_state u' = TSkipped /\
    only_task (t_id t) w w' /\ same_jobs w w'.
Proof.
  intros O fuel w t u Hf Hif Hu. rewrite deliver_pending.
  unfold task_wrapper, pending_handler. rewrite (proj2 (trim_false _) Hif). change (String.eqb "false" "false") with true. cbn iota.
  unfold skip_task. rewrite run_catch, run_bind, run_now, run_with_msg, run_bind.
  erewrite run_update_task; [|exact Hf|exact Hu|reflexivity].
  unfold publish_task. rewrite run_publish by exact Hf.
  pose proof (find_task_id _ _ _ Hu) as Ei. rewrite <- Ei in Hu |- *.
  match goal with |- context [put_task ?x _] => set (u' := x) end.
  match goal with |- exists _ _ _, (?x, _) = _ /\ _ => set (w' := x) end.
  destruct (put_task_effect w w' u u' Hu eq_refl eq_refl) as [F1 F2].
  exists w', u'. eexists. split; [reflexivity|]. split; [reflexivity|]. repeat split; auto; apply F2.
Qed.
Print Assumptions C19_false_is_skipped.

(** With failing operations and crashes at any point: no task or job is created, and nothing but (at most) the completion announcement is published. *)
Theorem C19_never_executed : forall O w t n,
  false_padded (t_if t) ->
  let w' := after n (pending_handler O t) w in
  same_jobs w w' /\ map t_id (w_tasks w') = map t_id (w_tasks w) /\
  (published w w' [] \/ exists t', published w w' [MTask QUEUE_COMPLETED t'] /\ t_id t' = t_id t /\ t_state t' = TSkipped).
Proof.
  intros O w t n Hif. cbn zeta. unfold pending_handler. rewrite (proj2 (trim_false _) Hif). change (String.eqb "false" "false") with true. cbn iota.
  unfold skip_task, published, same_jobs. change now with (op a_now). rewrite after_op_bind. destruct n as [|n]; [rewrite app_nil_r; auto|].
  unfold a_now. rewrite after_with_msg. unfold update_task. rewrite after_op_bind. destruct n as [|n]; [rewrite app_nil_r; auto|].
  match goal with |- context [a_update_task ?i ?f w] => pose proof (case_update_task i) as C end.
  unfold update_task in C.
  match goal with |- context [a_update_task ?i (modi ?f) w] => destruct (C f w) as (w1 & [(Hc & e & E)|(u & Hu & Hc & E)]) end;
    rewrite run_op in E; rewrite E; clear C.
  - destruct Hc as (H1 & H2 & H3 & H4 & _). rewrite H1, H2, H4, app_nil_r. auto.
  - unfold publish_task. rewrite after_op. destruct Hc as (H1 & H2 & H3 & H4 & _). cbn in H1, H2, H4. destruct n as [|n]; [rewrite H1, H2, H4, map_id_put_task, app_nil_r; auto|].
    rewrite fst_run_op. match goal with |- context [a_publish ?m] => destruct (case_publish m w1) as (w2 & [(Hc & e & E2)|(Hc & E2)]) end; rewrite E2; cbn [fst];
    destruct Hc as (K1 & K2 & K3 & K4 & _); cbn in K1, K2, K4; rewrite K1, K2, K4, H1, H2, H4, map_id_put_task.
    + rewrite app_nil_r. auto.
    + repeat split; auto. right. eexists. split; [reflexivity|auto].
Qed.
Print Assumptions C19_never_executed.

(** ** C21 *)
(** [t'] is sent to the queue it names, and the stored row of the task agrees with it *)
Definition sent_as_stored (w w' : world) (t : task) : Prop :=
  exists j t' u', published w w' [MTask (t_queue t') t'] /\ find_job (t_job t) w = Some j /\ resolved j t t' /\
    find_task (t_id t) w' = Some u' /\ settings u' = settings t' /\ t_state t' = TScheduled.

Lemma resolved_state j t t' s n : resolved j t t' -> resolved j t (t' <| t_state := s |> <| t_scheduled := n |>).
Proof. unfold resolved, unscheduled. cbn. auto. Qed.

Theorem C21_published_once_as_stored : forall O w t n,
  regular t -> ~ false_padded (t_if t) ->
  let w' := after n (pending_handler O t) w in
  same_jobs w w' /\ only_task (t_id t) w w' /\ (published w w' [] \/ sent_as_stored w w' t).
Proof.
  intros O w t n (Hp & He & Hs) Hif. cbn zeta. unfold pending_handler.
  destruct (String.eqb (trim_space (t_if t)) "false") eqn:Ef; [apply String.eqb_eq in Ef; apply trim_false in Ef; contradiction|].
  unfold schedule_task. rewrite Hp, He, Hs. unfold schedule_regular, published, same_jobs.
  assert (R0 : forall w0, calm w w0 -> w_jobs w0 = w_jobs w /\ only_task (t_id t) w w0 /\ (w_hist w0 = w_hist w ++ [] \/ sent_as_stored w w0 t)).
  { intros w0 Hc. pose proof Hc as (H1 & H2 & H3 & H4 & _). rewrite H2, H4, app_nil_r. unfold only_task. rewrite H1. repeat split; auto.
    intros k _. apply calm_find_task. auto. }
  change now with (op a_now). rewrite after_op_bind. destruct n as [|n]; [apply R0, calm_refl|].
  unfold a_now, get_job. rewrite after_op_bind. destruct n as [|n]; [apply R0, calm_refl|].
  destruct (case_get_job (t_job t) w) as (w1 & Hc & [(j & Hj & E)|(e & E)]); unfold get_job in E; rewrite run_op in E; rewrite E; [|apply R0; auto].
  rewrite after_with_msg. unfold update_task. rewrite after_op_bind. destruct n as [|n]; [apply R0; auto|].
  pose proof (resolved_state j t _ TScheduled (Some (w_clock w)) (apply_defaults_resolved j t)) as HR.
  set (t' := (apply_defaults j t) <| t_state := TScheduled |> <| t_scheduled := Some (w_clock w) |>) in *.
  match goal with |- context [a_update_task ?i (modi ?f) w1] => destruct (case_update_task i f w1) as (w2 & [(Hc2 & e & E2)|(u & Hu & Hc2 & E2)]) end;
    unfold update_task in E2; rewrite run_op in E2; rewrite E2; [apply R0; eapply calm_trans; eauto|].
  rewrite (calm_find_task _ _ _ Hc) in Hu. pose proof (find_task_id _ _ _ Hu) as Hi.
  destruct Hc as (A1 & A2 & A3 & A4 & A5). clear E E2 R0.
  match type of Hc2 with context [put_task ?x _] => set (u' := x) in * end.
  assert (Hu' : t_id u' = t_id u /\ settings u' = settings t') by (split; reflexivity).
  assert (Hst : t_state t' = TScheduled) by reflexivity. clearbody u' t'.
  destruct Hc2 as (B1 & B2 & B3 & B4 & B5). cbn in B1, B2, B3, B4. rewrite A1 in B1. rewrite A2 in B2. rewrite A4 in B4.
  assert (R1 : forall w3, w_tasks w3 = w_tasks w2 -> find_task (t_id t) w3 = Some u' /\ only_task (t_id t) w w3).
  { intros w3 H3. rewrite <- Hi. apply put_task_effect; [now rewrite Hi|tauto|congruence]. }
  unfold publish_task. rewrite after_op. destruct n as [|n].
  { rewrite B2, B4, app_nil_r. split; [auto|]. split; [now apply R1|auto]. }
  rewrite fst_run_op. match goal with |- context [a_publish ?m] => destruct (case_publish m w2) as (w3 & [(Hc3 & e & E2)|(Hc3 & E2)]) end; rewrite E2; cbn [fst];
  destruct Hc3 as (K1 & K2 & K3 & K4 & _); cbn in K1, K2, K4; destruct (R1 w3 K1) as [F1 F2]; rewrite K2, K4, B2, B4, ?app_nil_r; (split; [auto|]; split; [auto|]).
  - auto.
  - right. exists j, t', u'. unfold published. rewrite K4, B4. tauto.
Qed.
Print Assumptions C21_published_once_as_stored.

(** without faults the message is indeed sent *)
Theorem C21_published : forall O fuel w t u j,
  w_faults w = [] -> regular t -> ~ false_padded (t_if t) -> find_task (t_id t) w = Some u -> find_job (t_job t) w = Some j ->
  exists w', run (deliver O fuel (MTask QUEUE_PENDING t)) w = (w', Ok tt) /\ sent_as_stored w w' t.
Proof.
  intros O fuel w t u j Hf Hr Hif Hu Hj.
  pose proof (C21_published_once_as_stored O w t 4 Hr Hif) as (_ & _ & H). destruct Hr as (Hp & He & Hs).
  rewrite deliver_pending. unfold task_wrapper. rewrite run_catch.
  assert (E : exists w', run (pending_handler O t) w = (w', Ok tt) /\ w_hist w' <> w_hist w).
  { unfold pending_handler. destruct (String.eqb (trim_space (t_if t)) "false") eqn:Ef; [apply String.eqb_eq in Ef; apply trim_false in Ef; contradiction|].
    unfold schedule_task. rewrite Hp, He, Hs. unfold schedule_regular.
    rewrite run_bind, run_now, run_bind, run_get_job, Hj by exact Hf. rewrite run_with_msg, run_bind.
    erewrite run_update_task; [|exact Hf|exact Hu|reflexivity]. unfold publish_task. rewrite run_publish by exact Hf.
    eexists. split; [reflexivity|]. cbn. intros E. apply (f_equal (@length _)) in E. rewrite app_length in E. cbn in E. lia. }
  destruct E as (w' & E & Hh). rewrite E. exists w'. split; [reflexivity|].
  replace (after 4 (pending_handler O t) w) with w' in H; [destruct H as [H|H]; [|exact H]; unfold published in H; rewrite app_nil_r in H; contradiction|].
  change w' with (fst (w', Ok tt)). rewrite <- E. clear H E Hh.
  unfold pending_handler. destruct (String.eqb (trim_space (t_if t)) "false") eqn:Ef; [apply String.eqb_eq in Ef; apply trim_false in Ef; contradiction|].
  unfold schedule_task. rewrite Hp, He, Hs. unfold schedule_regular.
  rewrite run_bind, run_now, run_bind, run_get_job, Hj by exact Hf. rewrite run_with_msg, run_bind.
  change now with (op a_now). rewrite after_op_bind. unfold a_now, get_job. rewrite after_op_bind.
  pose proof (run_get_job (t_job t) w Hf) as G. unfold get_job in G. rewrite run_op in G. rewrite G, Hj, after_with_msg.
  unfold update_task, publish_task. rewrite after_op_bind.
  erewrite run_op. match goal with |- context [a_update_task ?i ?f w] => pose proof (run_update_task i f w u) as G2 end.
  unfold update_task in G2. rewrite run_op in G2. erewrite G2; [|exact Hf|exact Hu|reflexivity].
  rewrite after_op, fst_run_op. rewrite run_publish by exact Hf. reflexivity.
Qed.
Print Assumptions C21_published.
Example C19_C21_nonvacuous : exists c t u, reachable O0 c /\ In (MTask QUEUE_PENDING t) (w_hist (cw c)) /\ w_faults (cw c) = [] /\
  regular t /\ ~ false_padded (t_if t) /\ find_task (t_id t) (cw c) = Some u.
Proof.
  exists (sim_c O0 start [CApi (OSubmit (demo_job [simple "a"; simple "b"])); CRun 0 100; CDeliver 0; CRun 1 100; CComplete 1 "r"; CDeliver 2; CRun 2 100]).
  do 2 eexists. split; [apply sim_c_reachable; [repeat (constructor; [cbn; unfold accepted; cbn; repeat split; repeat constructor; easy|]); try constructor|reflexivity]|].
  split; [vm_compute; right; right; right; left; reflexivity|]. split; [reflexivity|]. split; [repeat split|]. split; [|vm_compute; reflexivity].
  intros H. apply trim_false in H. vm_compute in H. discriminate.
Qed.
