(** Proofs for C59 (statement: SpecLive.v, theorem: PropsLive.v). *)
From Verif Require Export SpecLive.
From Verif Require Import SeqTools EvalProofs InvSched InvMsgs PropsSched PropsComplete.
Open Scope string_scope.
Open Scope list_scope.
Open Scope Z_scope.

(** ** The schedule is an execution of the machine *)
Section Embed.
Variable O : oracle.
Lemma exec_trans c1 l1 c2 l2 c3 : exec O c1 l1 c2 -> exec O c2 l2 c3 -> exec O c1 (l1 ++ l2) c3.
Proof.
  intros H1 H2. induction H2 as [|c2 ls c4 l c5 H IH S]; [now rewrite app_nil_r|].
  rewrite app_assoc. eapply exec_snoc; [apply IH; exact H1|exact S].
Qed.
Lemma exec_single c l c' : step O c l c' -> exec O c [l] c'.
Proof. intros H. change [l] with ([] ++ [l])%list. eapply exec_snoc; [constructor|exact H]. Qed.
Lemma run_exec o (p : prog unit) : forall w, exists ls,
  exec O (mkConfig w [(o, p)]) ls (mkConfig (fst (run p w)) [(o, Done (snd (run p w)))]).
Proof.
  induction p as [r|B f k IH]; intros w.
  - exists []. constructor.
  - cbn [run]. destruct (f w) as [w' r] eqn:E. destruct (IH r w') as (ls & H). exists ([LOp o] ++ ls)%list.
    eapply exec_trans; [|exact H]. apply exec_single. exact (step_op O w [] o B f k [] w' r E).
Qed.
Lemma run_reachable w m : reachable O (mkConfig w []) -> In m (w_hist w) ->
  reachable O (mkConfig (fst (run (deliver O (N.to_nat (w_fresh w)) m) w)) []).
Proof.
  intros HR Hin. destruct (run_exec (OMsg m) (deliver O (N.to_nat (w_fresh w)) m) w) as (ls & H).
  eapply reachable_step; [eapply reachable_exec; [eapply reachable_step; [exact HR|exact (step_deliver O w [] m Hin)]|exact H]|].
  exact (step_kill O _ [] _ _ []).
Qed.
Lemma submit_reachable w d : reachable O (mkConfig w []) -> accepted d -> reachable O (mkConfig (fst (run (api_submit d) w)) []).
Proof.
  intros HR Ha. destruct (run_exec (OSubmit d) (api_submit d) w) as (ls & H).
  eapply reachable_step; [eapply reachable_exec; [eapply reachable_step; [exact HR|exact (step_api O w [] (OSubmit d) _ eq_refl Ha)]|exact H]|].
  exact (step_kill O _ [] _ _ []).
Qed.
Lemma clock_reachable w c : reachable O (mkConfig w []) -> reachable O (mkConfig (w <| w_clock := c |> <| w_faults := [] |>) []).
Proof. intros HR. eapply reachable_step; [exact HR|]. constructor. Qed.
Lemma emit_reachable w m : reachable O (mkConfig w []) -> env_msg (w_hist w) m -> reachable O (mkConfig (w <| w_hist := w_hist w ++ [m] |>) []).
Proof. intros HR H. eapply reachable_step; [exact HR|]. constructor. exact H. Qed.
Lemma emits_reachable l : forall w, reachable O (mkConfig w []) -> (forall m, In m l -> env_msg (w_hist w) m) ->
  reachable O (mkConfig (w <| w_hist := w_hist w ++ l |>) []).
Proof.
  induction l as [|m l IH]; intros w HR H.
  - rewrite app_nil_r. destruct w; exact HR.
  - assert (HR1 := emit_reachable w m HR (H m (or_introl eq_refl))).
    assert (Hm : forall x, In x l -> env_msg (w_hist (w <| w_hist := w_hist w ++ [m] |>)) x).
    { intros x Hx. assert (Hi : forall y, In y (w_hist w) -> In y (w_hist w ++ [m])) by (intros; apply in_or_app; auto). cbn.
      destruct (H x (or_intror Hx)); [eapply env_started|eapply env_completed|eapply env_failed|eapply env_progress|eapply env_redelivered|eapply env_heartbeat]; eauto. }
    specialize (IH _ HR1 Hm). replace (w <| w_hist := w_hist w ++ m :: l |>) with
      (w <| w_hist := w_hist w ++ [m] |> <| w_hist := w_hist (w <| w_hist := w_hist w ++ [m] |>) ++ l |>); [exact IH|].
    apply world_eq; try reflexivity. cbn. now rewrite <- app_assoc.
Qed.
Lemma fifo_step_reachable b w k : completes_all b -> reachable O (mkConfig w []) ->
  reachable O (mkConfig (fst (fifo_step O b (w, k))) []).
Proof.
  intros Hb HR. unfold fifo_step. cbn [fst snd]. destruct (nth_error (w_hist w) k) as [m|] eqn:E; [|exact HR].
  apply nth_error_In in E. cbn [fst]. assert (HR1 := clock_reachable w (b_clock b k) HR). set (w1 := w <| w_clock := _ |> <| w_faults := _ |>) in *.
  assert (E1 : In m (w_hist w1)) by exact E. unfold consume.
  destruct m as [q t| | | |]; try (apply run_reachable; assumption).
  destruct (is_task_queue q) eqn:Eq; [|apply run_reachable; assumption].
  apply emits_reachable; [exact HR1|]. intros m Hm. destruct (Hb k t) as (A & A1 & B & C & C1).
  unfold reports in Hm. cbn in Hm. destruct Hm as [<-|Hm]; [eapply env_started; eauto|].
  apply in_app_iff in Hm as [Hm|[<-|[]]]; [|eapply env_completed; eauto].
  apply in_map_iff in Hm as (x & <- & Hx). rewrite Forall_forall in B. eapply env_progress; eauto.
Qed.
End Embed.

(** ** Handlers on a world whose last task row is the current one *)
Lemma fifo_add O b n m s : fifo O b (n + m) s = fifo O b m (fifo O b n s).
Proof. revert s. induction n; intros s; cbn; auto. Qed.

Lemma put_last l u u' : ~ In (t_id u) (map t_id l) -> t_id u' = t_id u -> put_task u' (l ++ [u]) = l ++ [u'].
Proof.
  intros Hn Hi. unfold put_task. rewrite map_app. cbn [map]. rewrite Hi, N.eqb_refl. f_equal.
  rewrite <- (map_id l) at 2. apply map_ext_in. intros x Hx. destruct (N.eqb (t_id x) (t_id u)) eqn:E; [|reflexivity].
  apply N.eqb_eq in E. exfalso. apply Hn. rewrite <- E. now apply in_map.
Qed.
Lemma find_last w l u : w_tasks w = l ++ [u] -> ~ In (t_id u) (map t_id l) -> find_task (t_id u) w = Some u.
Proof.
  intros E Hn. unfold find_task. rewrite E. clear E. induction l as [|x l IH]; cbn.
  - now rewrite N.eqb_refl.
  - destruct (N.eqb (t_id x) (t_id u)) eqn:Ex; [apply N.eqb_eq in Ex; exfalso; apply Hn; left; exact Ex|].
    apply IH. intros H. apply Hn. right. exact H.
Qed.
Lemma last_fresh w l u : Inv w -> w_tasks w = l ++ [u] -> ~ In (t_id u) (map t_id l).
Proof.
  intros HI E. pose proof (inv_task_ids _ HI) as H. rewrite E, map_app in H. cbn in H. apply NoDup_remove_2 in H. now rewrite app_nil_r in H.
Qed.

(** scheduling a task alone *)
Lemma pending_skip O w t l u : w_faults w = [] -> w_tasks w = l ++ [u] -> ~ In (t_id u) (map t_id l) -> t_id t = t_id u -> false_padded (t_if t) ->
  exists w' u' t', run (pending_handler O t) w = (w', Ok tt) /\ w_tasks w' = l ++ [u'] /\ w_jobs w' = w_jobs w /\ w_faults w' = [] /\
    w_hist w' = w_hist w ++ [MTask QUEUE_COMPLETED t'] /\
    t_id u' = t_id u /\ t_job u' = t_job u /\ t_parent u' = t_parent u /\ t_position u' = t_position u /\ t_created u' = t_created u /\ body u' = body u /\ t_state u' = TSkipped /\
    t_id t' = t_id t /\ t_job t' = t_job t /\ t_parent t' = t_parent t /\ t_state t' = TSkipped /\ t_result t' = t_result t /\ t_var t' = t_var t.
Proof.
  intros Hf Ht Hn Hi Hif. unfold pending_handler. rewrite (proj2 (trim_false _) Hif). change (String.eqb "false" "false") with true. cbn iota.
  unfold skip_task. rewrite run_bind, run_now, run_with_msg, run_bind.
  erewrite run_update_task; [|exact Hf|rewrite Hi; apply (find_last w l u Ht Hn)|reflexivity].
  unfold publish_task. rewrite run_publish by exact Hf.
  match goal with |- context [put_task ?x _] => set (u' := x) end.
  match goal with |- exists _ _ _, (?x, _) = _ /\ _ => set (w' := x) end.
  match type of w' with _ => match eval cbv delta [w'] in w' with context [MTask QUEUE_COMPLETED ?x] => set (t' := x) in * end end.
  exists w', u', t'. split; [reflexivity|]. split; [cbn; rewrite Ht; apply put_last; [exact Hn|reflexivity]|].
  split; [reflexivity|]. split; [exact Hf|]. split; [reflexivity|]. repeat split.
Qed.
Lemma pending_sched O w t l u j : w_faults w = [] -> w_tasks w = l ++ [u] -> ~ In (t_id u) (map t_id l) -> t_id t = t_id u -> ~ false_padded (t_if t) ->
  regular t -> find_job (t_job t) w = Some j ->
  exists w' u' t', run (pending_handler O t) w = (w', Ok tt) /\ w_tasks w' = l ++ [u'] /\ w_jobs w' = w_jobs w /\ w_faults w' = [] /\
    w_hist w' = w_hist w ++ [MTask (t_queue t') t'] /\
    t_id u' = t_id u /\ t_job u' = t_job u /\ t_parent u' = t_parent u /\ t_position u' = t_position u /\ t_created u' = t_created u /\ body u' = body u /\ t_state u' = TScheduled /\
    resolved j t t'.
Proof.
  intros Hf Ht Hn Hi Hif (Hp & He & Hs) Hj. unfold pending_handler.
  destruct (String.eqb (trim_space (t_if t)) "false") eqn:Ef; [apply String.eqb_eq in Ef; apply trim_false in Ef; contradiction|].
  unfold schedule_task. rewrite Hp, He, Hs. unfold schedule_regular.
  rewrite run_bind, run_now, run_bind, run_get_job, Hj by exact Hf. rewrite run_with_msg, run_bind.
  pose proof (resolved_state j t _ TScheduled (Some (w_clock w)) (apply_defaults_resolved j t)) as HR.
  set (t' := (apply_defaults j t) <| t_state := TScheduled |> <| t_scheduled := Some (w_clock w) |>) in *.
  assert (Hst : t_state t' = TScheduled) by reflexivity. clearbody t'.
  erewrite run_update_task; [|exact Hf|rewrite Hi; apply (find_last w l u Ht Hn)|reflexivity].
  unfold publish_task. rewrite run_publish by exact Hf.
  match goal with |- context [put_task ?x _] => set (u' := x) end.
  match goal with |- exists _ _ _, (?x, _) = _ /\ _ => set (w' := x) end.
  exists w', u', t'. split; [reflexivity|]. split; [cbn; rewrite Ht; apply put_last; [exact Hn|reflexivity]|].
  split; [reflexivity|]. split; [exact Hf|]. split; [reflexivity|]. repeat (split; [reflexivity|]). split; [exact Hst|exact HR].
Qed.

(** ** Reports of a worker about the current task *)
(** nothing about the current row and its job has changed that the following steps depend on *)
Definition same_row (u u' : task) : Prop :=
  t_id u' = t_id u /\ t_job u' = t_job u /\ t_parent u' = t_parent u /\ t_position u' = t_position u /\ t_created u' = t_created u /\ body u' = body u.
Definition same_job (j j' : job) : Prop :=
  j_id j' = j_id j /\ j_parent j' = j_parent j /\ j_tasks j' = j_tasks j /\ j_output j' = j_output j /\ j_defaults j' = j_defaults j /\
  j_taskcount j' = j_taskcount j /\ j_position j' = j_position j /\ j_context j' = j_context j.
Lemma same_row_refl u : same_row u u. Proof. repeat split. Qed.
Lemma same_row_trans a b c : same_row a b -> same_row b c -> same_row a c.
Proof. unfold same_row. intros (?&?&?&?&?&?) (?&?&?&?&?&?). repeat split; congruence. Qed.
Lemma same_job_refl u : same_job u u. Proof. repeat split. Qed.
Lemma same_job_trans a b c : same_job a b -> same_job b c -> same_job a c.
Proof. unfold same_job. intros (?&?&?&?&?&?&?&?) (?&?&?&?&?&?&?&?). repeat split; congruence. Qed.

Definition waiting (s : tstate) : Prop := s = TScheduled \/ s = TRunning.

Lemma started_alone O fuel w t l u j : w_faults w = [] -> w_tasks w = l ++ [u] -> ~ In (t_id u) (map t_id l) -> t_id t = t_id u ->
  find_job (t_job t) w = Some j -> live (j_state j) -> waiting (t_state u) ->
  exists w' u' j', run (deliver O fuel (MTask QUEUE_STARTED t)) w = (w', Ok tt) /\ w_tasks w' = l ++ [u'] /\ w_faults w' = [] /\
    w_hist w' = w_hist w /\ same_row u u' /\ waiting (t_state u') /\
    find_job (t_job t) w' = Some j' /\ same_job j j' /\ live (j_state j') /\ (forall k, k <> t_job t -> find_job k w' = find_job k w).
Proof.
  intros Hf Ht Hn Hi Hj Hl Hw. rewrite deliver_started. unfold task_wrapper. rewrite run_catch. unfold started_handler.
  rewrite run_bind, run_get_job, Hj by exact Hf. replace (job_live (j_state j)) with true by (destruct Hl as [->| ->]; reflexivity).
  cbn [negb]. rewrite run_bind. pose proof (find_job_id _ _ _ Hj) as Hji.
  set (u' := (if tstate_eqb (t_state u) TScheduled then u <| t_state := TRunning |> <| t_started := Some (w_clock w) |> else u) <| t_node := t_node t |>).
  assert (Hu' : same_row u u' /\ waiting (t_state u')).
  { unfold u', same_row, waiting. destruct Hw as [E|E]; rewrite E; cbn [tstate_eqb]; split; [repeat split|right; reflexivity|repeat split|right; exact E]. }
  assert (Hx : exists w1 j', run (if jstate_eqb (j_state j) JScheduled then job_handler O (j <| j_state := JRunning |>) else ret tt) w = (w1, Ok tt) /\
     w_tasks w1 = w_tasks w /\ w_faults w1 = [] /\ w_hist w1 = w_hist w /\ w_clock w1 = w_clock w /\ find_job (t_job t) w1 = Some j' /\ same_job j j' /\ live (j_state j') /\
     (forall k, k <> t_job t -> find_job k w1 = find_job k w)).
  { destruct Hl as [E|E]; rewrite E; cbn [jstate_eqb].
    - change (job_handler O (j <| j_state := JRunning |>)) with (mark_running (j <| j_state := JRunning |>)). unfold mark_running.
      change (j_id (j <| j_state := JRunning |>)) with (j_id j).
      set (j' := j <| j_state := JRunning |> <| j_failed := None |>).
      assert (Ej : (modi (fun u0 => if jstate_eqb (j_state u0) JScheduled then u0 <| j_state := JRunning |> <| j_failed := None |> else u0) : job -> outcome (job * unit)) j = Ok (j', tt)) by (unfold modi; rewrite E; reflexivity).
      rewrite (run_update_job (j_id j) _ w j j' tt Hf); [|rewrite Hji; exact Hj|exact Ej].
      set (w1 := w <| w_jobs := put_job j' (w_jobs w) |>).
      assert (Hjj : find_job (j_id j) w = Some j) by (rewrite Hji; exact Hj).
      destruct (put_job_effect w w1 j j' Hjj eq_refl eq_refl) as (F1 & F2 & _).
      rewrite Hji in F1, F2. exists w1, j'. split; [reflexivity|]. split; [reflexivity|]. split; [exact Hf|]. split; [reflexivity|]. split; [reflexivity|].
      split; [exact F1|]. split; [repeat split|]. split; [right; reflexivity|exact F2].
    - exists w, j. rewrite run_ret. repeat (split; [first [reflexivity|assumption]|]). split; [apply same_job_refl|]. split; [right; exact E|auto]. }
  destruct Hx as (w1 & j' & E & A1 & A2 & A3 & A4 & A5 & A6 & A7 & A8). rewrite E, run_bind, run_now, A4.
  rewrite (run_update_task (t_id t) _ w1 u u' tt A2); [|rewrite Hi; apply (find_last w1 l u); [rewrite A1; exact Ht|exact Hn]|reflexivity].
  eexists. exists u', j'. split; [reflexivity|]. split; [cbn; rewrite A1, Ht; apply put_last; [exact Hn|apply Hu']|]. split; [exact A2|]. split; [exact A3|].
  split; [apply Hu'|]. split; [apply Hu'|]. split; [exact A5|]. split; [exact A6|]. split; [exact A7|exact A8].
Qed.
Lemma progress_alone O fuel w t l u j : w_faults w = [] -> w_tasks w = l ++ [u] -> ~ In (t_id u) (map t_id l) -> t_id t = t_id u ->
  find_job (t_job t) w = Some j -> j_taskcount j <> 0 -> live (j_state j) -> waiting (t_state u) ->
  exists w' u' j', run (deliver O fuel (MProgress t)) w = (w', Ok tt) /\ w_tasks w' = l ++ [u'] /\ w_faults w' = [] /\
    w_hist w' = w_hist w /\ same_row u u' /\ waiting (t_state u') /\
    find_job (t_job t) w' = Some j' /\ same_job j j' /\ live (j_state j') /\ (forall k, k <> t_job t -> find_job k w' = find_job k w).
Proof.
  intros Hf Ht Hn Hi Hj Hc Hl Hw. rewrite deliver_progress. unfold task_wrapper. rewrite run_catch. unfold progress_handler.
  rewrite run_with_msg, run_bind. pose proof (find_job_id _ _ _ Hj) as Hji.
  set (u' := u <| t_progress := clamp_progress (t_progress t) |>).
  assert (Hjj : find_job (j_id j) w = Some j) by (rewrite Hji; exact Hj).
  change (t_id (t <| t_progress := clamp_progress (t_progress t) |>)) with (t_id t).
  rewrite (run_update_task (t_id t) _ w u u' tt Hf); [|rewrite Hi; apply (find_last w l u Ht Hn)|reflexivity].
  set (w1 := w <| w_tasks := put_task u' (w_tasks w) |>).
  rewrite run_bind, run_get_job by exact Hf. change (find_job (t_job (t <| t_progress := clamp_progress (t_progress t) |>)) w1) with (find_job (t_job t) w). rewrite Hj.
  destruct (j_taskcount j =? 0) eqn:Ec; [apply Z.eqb_eq in Ec; contradiction|].
  set (p := job_progress _ _ _). set (j' := j <| j_progress := p |>).
  change (t_job (t <| t_progress := clamp_progress (t_progress t) |>)) with (t_job t).
  rewrite (run_update_job (t_job t) _ w1 j j' tt); [|exact Hf|exact Hj|reflexivity].
  set (w2 := w1 <| w_jobs := put_job j' (w_jobs w1) |>).
  destruct (put_job_effect w w2 j j' Hjj eq_refl eq_refl) as (F1 & F2 & _). rewrite Hji in F1, F2.
  exists w2, u', j'. split; [reflexivity|]. split; [cbn; rewrite Ht; apply put_last; [exact Hn|reflexivity]|]. split; [exact Hf|]. split; [reflexivity|].
  split; [repeat split|]. split; [exact Hw|]. split; [exact F1|]. split; [repeat split|]. split; [exact Hl|exact F2].
Qed.

(** ** The job at one of its tasks *)
Section Job.
Variables (O : oracle) (b : behaviour) (d : job) (w0 : world) (ji : id) (c0 : jobctx).
Hypothesis Hb : completes_all b.

Definition quiet (l : list msg) : Prop := Forall (fun m => match m with MEvent _ _ => False | _ => True end) l.
Record at_task (w : world) (k : nat) (rows : list task) (u : task) (j : job) (sent0 sent : list task) (ms : list msg) : Prop := {
  a_reach : reachable O (mkConfig w []);
  a_tasks : w_tasks w = (w_tasks w0 ++ rows) ++ [u];
  a_job : find_job ji w = Some j;
  a_others : forall i, i <> ji -> find_job i w = find_job i w0;
  a_parent : j_parent j = noid;
  a_defs : j_tasks j = j_tasks d;
  a_output : j_output j = j_output d;
  a_defaults : j_defaults j = j_defaults d;
  a_count : j_taskcount j = Z.of_nat (length (j_tasks d));
  a_live : live (j_state j);
  a_pos : j_position j = Z.of_nat (S (length rows));
  a_len : (length rows < length (j_tasks d))%nat;
  a_worked : worked O b d ji c0 (firstn (length rows) (j_tasks d)) rows sent0 (j_context j);
  a_rowjob : t_job u = ji;
  a_rowparent : t_parent u = noid;
  a_rowpos : t_position u = Z.of_nat (S (length rows));
  a_hist : exists new, w_hist w = w_hist w0 ++ new ++ ms /\ k = length (w_hist w0 ++ new) /\ handed (new ++ ms) = sent /\ quiet (new ++ ms)
}.

Lemma handed_app l1 l2 : handed (l1 ++ l2) = (handed l1 ++ handed l2)%list.
Proof. induction l1 as [|m l IH]; [reflexivity|]. cbn. destruct m as [q t| | | |]; auto. destruct (is_task_queue q); cbn; now rewrite IH. Qed.

Lemma handed_progress l : handed (map MProgress l) = [].
Proof. induction l; auto. Qed.

Lemma fifo_one w k new m ms : w_hist w = w_hist w0 ++ new ++ m :: ms -> k = length (w_hist w0 ++ new) ->
  fifo_step O b (w, k) = (consume O b k m (w <| w_clock := b_clock b k |> <| w_faults := [] |>), S k).
Proof.
  intros E ->. unfold fifo_step. cbn [fst snd]. rewrite E, app_assoc. rewrite nth_error_app2 by lia. rewrite Nat.sub_diag. reflexivity.
Qed.
Lemma at_clock w k rows u j s0 s ms c : at_task w k rows u j s0 s ms -> at_task (w <| w_clock := c |> <| w_faults := [] |>) k rows u j s0 s ms.
Proof. intros []. constructor; auto. now apply clock_reachable. Qed.
Lemma at_fresh w k rows u j s0 s ms : at_task w k rows u j s0 s ms -> ~ In (t_id u) (map t_id (w_tasks w0 ++ rows)).
Proof. intros A. eapply last_fresh; [apply (reachable_inv O (mkConfig w [])); apply (a_reach _ _ _ _ _ _ _ _ A)|apply (a_tasks _ _ _ _ _ _ _ _ A)]. Qed.

(** a message is consumed with this effect *)
Lemma at_step w k rows u j s0 s m ms w' u' j' s' ms' :
  at_task w k rows u j s0 s (m :: ms) ->
  consume O b k m (w <| w_clock := b_clock b k |> <| w_faults := [] |>) = w' ->
  w_tasks w' = (w_tasks w0 ++ rows) ++ [u'] -> w_hist w' = w_hist w ++ ms' ->
  find_job ji w' = Some j' -> same_job j j' -> live (j_state j') -> (forall i, i <> ji -> find_job i w' = find_job i w) ->
  same_row u u' -> quiet ms' -> s' = s ++ handed ms' ->
  fifo_step O b (w, k) = (w', S k) /\ at_task w' (S k) rows u' j' s0 s' (ms ++ ms').
Proof.
  intros A E F2 F3 F4 (J1 & J2 & J3 & J4 & J5 & J6 & J7 & J8) F6 F7 (R1 & R2 & R3 & R4 & R5 & R6) Hq ->.
  pose proof A as [G1 G3 G4 G5 G6 G7 G8 G9 G10 G11 G12 G13 G14 G15 G16 G17 (new & G18 & G19 & G20 & G21)].
  assert (Ef : fifo_step O b (w, k) = (w', S k)) by (rewrite <- E; exact (fifo_one w k new m ms G18 G19)). split; [exact Ef|].
  constructor; try congruence.
  - change w' with (fst (w', S k)). rewrite <- Ef. now apply fifo_step_reachable.
  - intros i Hi. rewrite F7 by exact Hi. auto.
  - exists (new ++ [m]). split; [|split; [|split]].
    + rewrite F3, G18. now rewrite <- !app_assoc.
    + rewrite G19, app_assoc, (app_length _ [m]). cbn. lia.
    + rewrite <- app_assoc. cbn [app]. rewrite <- G20, <- handed_app, <- app_assoc. reflexivity.
    + rewrite <- app_assoc. cbn [app]. change (m :: ms ++ ms')%list with ((m :: ms) ++ ms')%list. rewrite app_assoc. apply Forall_app. split; [exact G21|exact Hq].
Qed.

(** a report *)
Definition report_on (u : task) (m : msg) : Prop :=
  exists t, (m = MTask QUEUE_STARTED t \/ m = MProgress t) /\ t_id t = t_id u /\ t_job t = ji.

Lemma same_report u u' m : same_row u u' -> report_on u m -> report_on u' m.
Proof. intros (E & _) (t & H1 & H2 & H3). exists t. repeat split; auto; congruence. Qed.

Lemma step_report w k rows u j s0 s m ms : at_task w k rows u j s0 s (m :: ms) -> report_on u m -> waiting (t_state u) ->
  exists w' u' j', fifo_step O b (w, k) = (w', S k) /\ at_task w' (S k) rows u' j' s0 s ms /\ same_row u u' /\ waiting (t_state u') /\ same_job j j'.
Proof.
  intros A (t & Hm & Hi & Hj) Hw. pose proof (at_fresh _ _ _ _ _ _ _ _ A) as Hn.
  pose proof (at_clock _ _ _ _ _ _ _ _ (b_clock b k) A) as [G1 G3 G4 G5 G6 G7 G8 G9 G10 G11 G12 G13 G14 G15 G16 G17 G18].
  set (w1 := w <| w_clock := b_clock b k |> <| w_faults := [] |>) in *. assert (G2 : w_faults w1 = []) by reflexivity. rewrite <- Hj in G4.
  assert (Hx : exists w' u' j', consume O b k m w1 = w' /\ w_tasks w' = (w_tasks w0 ++ rows) ++ [u'] /\ w_faults w' = [] /\
    w_hist w' = w_hist w1 /\ same_row u u' /\ waiting (t_state u') /\
    find_job (t_job t) w' = Some j' /\ same_job j j' /\ live (j_state j') /\ (forall k, k <> t_job t -> find_job k w' = find_job k w1)).
  { destruct Hm as [->| ->].
    - destruct (started_alone O (N.to_nat (w_fresh w1)) w1 t _ u j G2 G3 Hn Hi G4 G11 Hw) as (w' & u' & j' & E & H).
      exists w', u', j'. split; [|exact H]. unfold consume. change (is_task_queue QUEUE_STARTED) with false. cbn iota. rewrite E. reflexivity.
    - destruct (progress_alone O (N.to_nat (w_fresh w1)) w1 t _ u j G2 G3 Hn Hi G4) as (w' & u' & j' & E & H); [lia|exact G11|exact Hw|].
      exists w', u', j'. split; [|exact H]. unfold consume. rewrite E. reflexivity. }
  destruct Hx as (w' & u' & j' & E & X1 & X2 & X3 & X4 & X5 & X6 & X7 & X8 & X9). rewrite Hj in X6, X9.
  destruct (at_step w k rows u j s0 s m ms w' u' j' s [] A E X1) as [S1 S2]; auto.
  - rewrite X3. now rewrite app_nil_r.
  - constructor.
  - now rewrite app_nil_r.
  - rewrite app_nil_r in S2. exists w', u', j'. auto.
Qed.
Lemma step_reports l : forall w k rows u j s0 s ms, at_task w k rows u j s0 s (l ++ ms) -> Forall (report_on u) l -> waiting (t_state u) ->
  exists w' u' j', fifo O b (length l) (w, k) = (w', k + length l)%nat /\ at_task w' (k + length l)%nat rows u' j' s0 s ms /\ same_row u u' /\ waiting (t_state u') /\ same_job j j'.
Proof.
  induction l as [|m l IH]; intros w k rows u j s0 s ms A F Hw.
  - exists w, u, j. cbn. rewrite Nat.add_0_r. repeat (split; [first [reflexivity|assumption]|]). split; [apply same_row_refl|]. split; [exact Hw|apply same_job_refl].
  - cbn [app] in A. inversion F as [|? ? F1 F2]. destruct (step_report _ _ _ _ _ _ _ _ _ A F1 Hw) as (w1 & u1 & j1 & E1 & A1 & R1 & W1 & J1).
    destruct (IH w1 (S k) rows u1 j1 s0 s ms A1) as (w2 & u2 & j2 & E2 & A2 & R2 & W2 & J2).
    + eapply Forall_impl; [|exact F2]. intros y Hy. eapply same_report; eauto.
    + exact W1.
    + exists w2, u2, j2. cbn [length fifo]. rewrite E1, E2. replace (k + S (length l))%nat with (S k + length l)%nat by lia.
      split; [reflexivity|]. split; [exact A2|]. split; [eapply same_row_trans; eauto|]. split; [exact W2|eapply same_job_trans; eauto].
Qed.
End Job.

(** ** One task from its scheduling to its completion *)
Section Task.
Variables (O : oracle) (b : behaviour) (d : job) (w0 : world) (ji : id) (c0 : jobctx).
Hypothesis Hb : completes_all b.
Hypothesis Hacc : Forall pristine (j_tasks d).
Hypothesis Hreg : Forall regular (j_tasks d).
Hypothesis Hev : evaluable O d.
Hypothesis Hserved : served O d.
Notation at_task := (at_task O b d w0 ji c0).

(** what is known of the completion message [c] of the current row [u] *)
Definition current (j : job) (n : nat) (u : task) (sent0 sent : list task) (c : task) : Prop :=
  exists def t, nth_error (j_tasks d) n = Some def /\ eval_task (o_tmpl O (j_context j) None) def = inl t /\ body u = body t /\
    t_id c = t_id u /\ t_job c = ji /\ t_parent c = noid /\ t_var c = t_var t /\
    ((false_padded (t_if t) /\ t_state c = TSkipped /\ t_result c = "" /\ sent = sent0) \/
     (~ false_padded (t_if t) /\ t_state c = TCompleted /\ exists k m, t_result c = t_result (b_done b k m) /\ t_id m = t_id u /\
        resolved d (identity (t_id u) ji noid TPending (t_position u) (t_created u) t) m /\ sent = sent0 ++ [m])).

(** the message of the current row, as instantiated *)
Definition instance (j : job) (n : nat) (u x : task) : Prop :=
  exists def t, nth_error (j_tasks d) n = Some def /\ eval_task (o_tmpl O (j_context j) None) def = inl t /\ body u = body t /\
    x = identity (t_id u) ji noid TPending (t_position u) (t_created u) t.

Lemma def_facts n def c t : nth_error (j_tasks d) n = Some def -> eval_task (o_tmpl O c None) def = inl t ->
  regular t /\ t_result t = "" /\ t_parent t = noid.
Proof.
  intros Hn He. apply nth_error_In in Hn. rewrite Forall_forall in Hacc, Hreg. pose proof (Hacc _ Hn) as Hp. destruct (Hreg _ Hn) as (R1 & R2 & R3).
  pose proof (eval_task_core _ _ _ He) as (E1 & E2 & E3 & E4 & E5 & E6 & E7 & E8 & E9 & E10 & E11 & E12 & E13 & E14 & E15 & E16 & E17 & E18 & _).
  apply pristine_eq in Hp. destruct Hp as (_ & _ & P1 & _ & _ & _ & P2 & _).
  apply eval_task_frame in He as (?&?&?&?&?&?&?&?&pa&?&sj& Et & _ & _ & _ & _ & _ & _ & _ & _ & Hpa & _ & Hsj).
  rewrite R1 in Hpa. rewrite R3 in Hsj. subst pa sj. unfold regular. split; [|split; congruence].
  rewrite E18. split; [rewrite Et; reflexivity|]. split; [exact R2|rewrite Et; reflexivity].
Qed.

(** consumed by the coordinator *)
Lemma consume_coord k m w w' : (match m with MTask q _ => is_task_queue q = false | _ => True end) ->
  run (deliver O (N.to_nat (w_fresh w)) m) w = (w', Ok tt) -> consume O b k m w = w'.
Proof. intros H E. unfold consume. rewrite E. destruct m as [q t| | | |]; try reflexivity. rewrite H. reflexivity. Qed.

(** scheduling the current task: what [pending_handler] does in the middle of a run *)
Lemma sched_current w l u j x n : w_faults w = [] -> w_tasks w = l ++ [u] -> ~ In (t_id u) (map t_id l) ->
  find_job ji w = Some j -> j_defaults j = j_defaults d -> instance j n u x ->
  exists w' u' m, run (pending_handler O x) w = (w', Ok tt) /\ w_tasks w' = l ++ [u'] /\ w_jobs w' = w_jobs w /\ w_faults w' = [] /\
    w_hist w' = w_hist w ++ [m] /\ same_row u u' /\
    ((exists c, m = MTask QUEUE_COMPLETED c /\ t_state u' = TSkipped /\ handed [m] = [] /\ forall s, current j n u' s s c) \/
     (exists y def t, m = MTask (t_queue y) y /\ t_state u' = TScheduled /\ is_task_queue (t_queue y) = true /\ t_id y = t_id u /\ t_job y = ji /\ t_parent y = noid /\
        nth_error (j_tasks d) n = Some def /\ eval_task (o_tmpl O (j_context j) None) def = inl t /\ body u = body t /\ ~ false_padded (t_if t) /\ t_var y = t_var t /\
        resolved d (identity (t_id u) ji noid TPending (t_position u) (t_created u) t) y)).
Proof.
  intros Hf Ht Hn Hj Hd (def & t & Hdef & He & Hbody & Hx).
  destruct (def_facts n def _ t Hdef He) as (Hr & Hres & _).
  assert (X : t_id x = t_id u /\ t_job x = ji /\ t_parent x = noid /\ t_if x = t_if t /\ t_result x = "" /\ t_var x = t_var t /\ regular x /\ t_queue x = t_queue t).
  { rewrite Hx. unfold identity, regular in *. cbn. tauto. }
  destruct X as (X1 & X2 & X3 & X4 & X5 & X6 & X7 & X8).
  assert (Hdec : false_padded (t_if x) \/ ~ false_padded (t_if x)).
  { destruct (string_dec (trim_space (t_if x)) "false") as [E|E]; [left; now apply trim_false|right; rewrite <- trim_false; exact E]. }
  destruct Hdec as [Hif|Hif].
  - destruct (pending_skip O w x l u Hf Ht Hn X1 Hif) as (w' & u' & t' & E & A1 & A2 & A3 & A4 & B1 & B2 & B3 & B4 & B5 & B6 & B7 & C1 & C2 & C3 & C4 & C5 & C6).
    exists w', u', (MTask QUEUE_COMPLETED t'). repeat (split; [first [assumption|repeat split; assumption]|]). left. exists t'. split; [reflexivity|]. split; [exact B7|]. split; [reflexivity|].
    intros s. exists def, t. split; [exact Hdef|]. split; [exact He|]. split; [congruence|]. split; [congruence|]. split; [congruence|]. split; [congruence|]. split; [congruence|].
    left. split; [rewrite <- X4; exact Hif|]. split; [exact C4|]. split; [congruence|reflexivity].
  - rewrite <- X2 in Hj. destruct (pending_sched O w x l u j Hf Ht Hn X1 Hif X7 Hj) as (w' & u' & t' & E & A1 & A2 & A3 & A4 & B1 & B2 & B3 & B4 & B5 & B6 & B7 & R).
    exists w', u', (MTask (t_queue t') t'). repeat (split; [first [assumption|repeat split; assumption]|]). right. exists t', def, t. split; [reflexivity|]. split; [exact B7|].
    assert (Rd : resolved d x t') by (unfold resolved, defaults_of in *; rewrite <- Hd; exact R).
    pose proof Rd as (Q & _ & _ & _ & _ & _ & _ & U). split.
    { rewrite Q, X8. apply (Hserved (j_context j) def t); [eapply nth_error_In; exact Hdef|exact He]. }
    assert (U1 : t_id t' = t_id x /\ t_job t' = t_job x /\ t_parent t' = t_parent x /\ t_var t' = t_var x).
    { repeat split; [change (t_id (unscheduled t') = t_id (unscheduled x))|change (t_job (unscheduled t') = t_job (unscheduled x))|change (t_parent (unscheduled t') = t_parent (unscheduled x))|change (t_var (unscheduled t') = t_var (unscheduled x))]; now rewrite U. }
    destruct U1 as (U1 & U2 & U3 & U4). split; [congruence|]. split; [congruence|]. split; [congruence|]. split; [exact Hdef|]. split; [exact He|]. split; [exact Hbody|].
    split; [rewrite <- X4; exact Hif|]. split; [congruence|]. rewrite <- Hx. exact Rd.
Qed.

(** the current task has been scheduled by [m] *)
Definition launched (j : job) (n : nat) (u : task) (s0 s : list task) (m : msg) : Prop :=
  (exists c, m = MTask QUEUE_COMPLETED c /\ t_state u = TSkipped /\ current j n u s0 s c) \/
  (exists y def t, m = MTask (t_queue y) y /\ t_state u = TScheduled /\ is_task_queue (t_queue y) = true /\ t_id y = t_id u /\ t_job y = ji /\ t_parent y = noid /\
        nth_error (j_tasks d) n = Some def /\ eval_task (o_tmpl O (j_context j) None) def = inl t /\ body u = body t /\ ~ false_padded (t_if t) /\ t_var y = t_var t /\
        resolved d (identity (t_id u) ji noid TPending (t_position u) (t_created u) t) y /\ s = s0 ++ [y]).

Lemma to_ready w k rows u j s0 s m : at_task w k rows u j s0 s [m] -> launched j (length rows) u s0 s m ->
  exists n w' k' u' j' c, fifo O b n (w, k) = (w', k') /\ at_task w' k' rows u' j' s0 s [MTask QUEUE_COMPLETED c] /\
    acceptable (t_state u') /\ current j' (length rows) u' s0 s c.
Proof.
  intros A [(c & -> & Hst & Hc)|(y & def & t & -> & Hst & Hq & Y1 & Y2 & Y3 & Hdef & He & Hbody & Hif & Hv & Hres & Hs)].
  - exists 0%nat, w, k, u, j, c. split; [reflexivity|]. split; [exact A|]. split; [right; right; exact Hst|exact Hc].
  - pose proof (Hb k y) as (W1 & W2 & W3 & W4 & W5).
    assert (E : consume O b k (MTask (t_queue y) y) (w <| w_clock := b_clock b k |> <| w_faults := [] |>) = (w <| w_clock := b_clock b k |> <| w_faults := [] |>) <| w_hist := w_hist w ++ reports b k y |>).
    { unfold consume. rewrite Hq. reflexivity. }
    assert (Hh : handed (reports b k y) = []).
    { unfold reports. cbn. rewrite handed_app, handed_progress. reflexivity. }
    destruct (at_step O b d w0 ji c0 Hb w k rows u j s0 s _ [] _ u j s (reports b k y) A E) as (E1 & A1).
    + exact (a_tasks _ _ _ _ _ _ _ _ _ _ _ _ _ _ A).
    + reflexivity.
    + exact (a_job _ _ _ _ _ _ _ _ _ _ _ _ _ _ A).
    + apply same_job_refl.
    + exact (a_live _ _ _ _ _ _ _ _ _ _ _ _ _ _ A).
    + reflexivity.
    + apply same_row_refl.
    + unfold reports. constructor; [exact I|]. apply Forall_app. split; [|repeat constructor]. apply Forall_forall. intros x Hx. apply in_map_iff in Hx as (? & <- & _). exact I.
    + rewrite Hh. now rewrite app_nil_r.
    + set (w1 := (w <| w_clock := b_clock b k |> <| w_faults := [] |>) <| w_hist := w_hist w ++ reports b k y |>) in *.
      set (l := MTask QUEUE_STARTED (b_start b k y) :: map MProgress (b_progress b k y)).
      change ([] ++ reports b k y)%list with (l ++ [MTask QUEUE_COMPLETED (b_done b k y)])%list in A1.
      destruct (step_reports O b d w0 ji c0 Hb l w1 (S k) rows u j s0 s _ A1) as (w2 & u2 & j2 & E2 & A2 & R2 & S2 & J2).
      { unfold l. constructor.
        - exists (b_start b k y). split; [left; reflexivity|]. destruct W1 as (I1 & I2 & _). split; congruence.
        - apply Forall_forall. intros x Hx. apply in_map_iff in Hx as (p & <- & Hp). rewrite Forall_forall in W3. destruct (W3 p Hp) as (I1 & I2 & _).
          exists p. split; [right; reflexivity|]. split; congruence. }
      { left. exact Hst. }
      exists (S (length l)), w2, (S k + length l)%nat, u2, j2, (b_done b k y). split; [cbn [fifo]; rewrite E1; exact E2|].
      split; [exact A2|]. split; [destruct S2; [right; left|left]; assumption|].
      destruct R2 as (I1 & I2 & I3 & I4 & I5 & I6). destruct J2 as (_ & _ & _ & _ & _ & _ & _ & J8).
      destruct W4 as (D1 & D2 & D3 & D4 & D5 & _). exists def, t. rewrite J8.
      split; [exact Hdef|]. split; [exact He|]. split; [congruence|]. split; [congruence|]. split; [congruence|]. split; [congruence|]. split; [congruence|].
      right. split; [exact Hif|]. split; [exact W5|]. exists k, y. split; [reflexivity|]. split; [congruence|]. split; [rewrite I1, I4, I5; exact Hres|exact Hs].
Qed.

(** a pending message of the current task *)
Lemma from_pending w k rows u j s x : at_task w k rows u j s s [MTask QUEUE_PENDING x] -> instance j (length rows) u x ->
  exists w' u' s' m, fifo_step O b (w, k) = (w', S k) /\ at_task w' (S k) rows u' j s s' [m] /\ launched j (length rows) u' s s' m.
Proof.
  intros A Hx. pose proof (at_fresh _ _ _ _ _ _ _ _ _ _ _ _ _ _ A) as Hn.
  pose proof (at_clock O b d w0 ji c0 _ _ _ _ _ _ _ _ (b_clock b k) A) as [G1 G3 G4 G5 G6 G7 G8 G9 G10 G11 G12 G13 G14 G15 G16 G17 G18].
  set (w1 := w <| w_clock := b_clock b k |> <| w_faults := [] |>) in *. assert (G2 : w_faults w1 = []) by reflexivity.
  destruct (sched_current w1 _ u j x (length rows) G2 G3 Hn G4 G9 Hx) as (w' & u' & m & E & B1 & B2 & B3 & B4 & B5 & B6).
  assert (Ec : consume O b k (MTask QUEUE_PENDING x) w1 = w').
  { apply consume_coord; [reflexivity|]. rewrite deliver_pending. unfold task_wrapper. rewrite run_catch, E. reflexivity. }
  assert (Hjb : forall i, find_job i w' = find_job i w1) by (intros i; unfold find_job; now rewrite B2).
  destruct (at_step O b d w0 ji c0 Hb w k rows u j s s _ [] w' u' j (s ++ handed [m]) [m] A Ec B1 B4) as (E1 & A1); auto.
  - rewrite Hjb. exact G4.
  - apply same_job_refl.
  - intros i _. exact (Hjb i).
  - destruct B6 as [(c & -> & _)|(y & def & t & -> & _)]; repeat constructor.
  - exists w', u', (s ++ handed [m]), m. split; [exact E1|]. split; [exact A1|]. destruct B5 as (I1 & I2 & I3 & I4 & I5 & I6). destruct B6 as [(c & M1 & M2 & M3 & M4)|(y & def & t & M1 & M2 & M3 & M4 & M5 & M6 & M7 & M8 & M9 & M10 & M11 & M12)].
    + left. exists c. split; [exact M1|]. split; [exact M2|]. rewrite M3, app_nil_r. apply M4.
    + right. exists y, def, t. rewrite I1, I4, I5, I6. repeat (split; [assumption|]). rewrite M1. cbn. rewrite M3. reflexivity.
Qed.

Lemma firstn_snoc {A} (l : list A) n x : nth_error l n = Some x -> firstn (S n) l = (firstn n l ++ [x])%list.
Proof. revert n. induction l as [|a l IH]; intros [|n] H; cbn in *; try discriminate; [now injection H as ->|]. f_equal. now apply IH. Qed.
Lemma body_var u t : body u = body t -> t_var u = t_var t.
Proof. unfold body. intros H. now injection H. Qed.

(** the completed row *)
Lemma worked_more w k rows u j s0 s ms c clk c2 : at_task w k rows u j s0 s ms -> current j (length rows) u s0 s c -> context_after c (j_context j) c2 ->
  worked O b d ji c0 (firstn (S (length rows)) (j_tasks d)) (rows ++ [completed_row clk c u]) s c2.
Proof.
  intros A (def & t & Hdef & He & Hbody & C1 & C2 & C3 & C4 & H) Hc. rewrite (firstn_snoc _ _ _ Hdef).
  set (u1 := completed_row clk c u).
  assert (B : t_id u1 = t_id u /\ t_job u1 = t_job u /\ t_position u1 = t_position u /\ t_created u1 = t_created u /\ body u1 = body u /\ t_state u1 = t_state c /\ t_result u1 = t_result c /\ t_var u1 = t_var u) by repeat split.
  destruct B as (B1 & B2 & B3 & B4 & B5 & B6 & B7 & B8). clearbody u1.
  pose proof (a_rowjob _ _ _ _ _ _ _ _ _ _ _ _ _ _ A) as RJ. pose proof (a_rowpos _ _ _ _ _ _ _ _ _ _ _ _ _ _ A) as RP.
  assert (Hc1 : context_after u1 (j_context j) c2).
  { unfold context_after in *. rewrite B7, B8, (body_var _ _ Hbody), <- C4. exact Hc. }
  pose proof (a_worked _ _ _ _ _ _ _ _ _ _ _ _ _ _ A) as W.
  destruct H as [(Hif & S1 & S2 & ->)|(Hif & S1 & k' & m & S2 & S3 & S4 & ->)].
  - eapply worked_skip; [exact W|exact He|exact Hif|congruence|congruence|congruence|congruence|congruence|exact Hc1].
  - eapply (worked_run O b d ji c0 _ _ _ _ _ _ _ k' m); [exact W|exact He|exact Hif|congruence|congruence|congruence|congruence|congruence|congruence| |exact Hc1].
    rewrite B1, B3, B4. exact S4.
Qed.

Lemma complete_more w k rows u j s0 s c : at_task w k rows u j s0 s [MTask QUEUE_COMPLETED c] -> acceptable (t_state u) -> current j (length rows) u s0 s c ->
  (S (length rows) < length (j_tasks d))%nat ->
  exists w' rows' u' j' x, fifo_step O b (w, k) = (w', S k) /\ at_task w' (S k) rows' u' j' s s [MTask QUEUE_PENDING x] /\
    instance j' (length rows') u' x /\ length rows' = S (length rows).
Proof.
  intros A Ha Hc Hlt. pose proof (at_fresh _ _ _ _ _ _ _ _ _ _ _ _ _ _ A) as Hn.
  assert (A1 := at_clock O b d w0 ji c0 _ _ _ _ _ _ _ _ (b_clock b k) A).
  pose proof A1 as [G1 G3 G4 G5 G6 G7 G8 G9 G10 G11 G12 G13 G14 G15 G16 G17 (new & G18 & G19 & G20 & G21)].
  pose proof (fifo_one O b w0 w k new _ [] G18 G19) as Ef.
  set (w1 := w <| w_clock := b_clock b k |> <| w_faults := [] |>) in *. assert (G2 : w_faults w1 = []) by reflexivity.
  pose proof Hc as (def & t & Hdef & He & Hbody & C1 & C2 & C3 & C4 & H).
  assert (Hin : In (MTask QUEUE_COMPLETED c) (w_hist w1)) by (rewrite G18; apply in_or_app; right; apply in_or_app; right; left; reflexivity).
  assert (Hcc : completion c) by (destruct H as [(_ & S & _)|(_ & S & _)]; [right|left]; exact S).
  assert (Hfu : find_task (t_id c) w1 = Some u) by (rewrite C1; exact (find_last w1 _ u G3 Hn)).
  assert (Hfj : find_job (t_job c) w1 = Some j) by (rewrite C2; exact G4).
  assert (Hpos : j_position j < Z.of_nat (length (j_tasks j))) by (rewrite G12, G7; lia).
  destruct (C07_next_task_is_started O (mkConfig w1 []) (N.to_nat (w_fresh w1)) c u j G1 G2 Hin Hcc C3 Hfu Ha Hfj Hpos) as (w' & j' & def2 & nx & E & Hadv & Hd2 & Hnx & T1 & T2 & T3).
  cbn [cw] in *. assert (Ec : consume O b k (MTask QUEUE_COMPLETED c) w1 = w') by (apply consume_coord; [reflexivity|exact E]).
  assert (Ef' : fifo_step O b (w, k) = (w', S k)) by (rewrite <- Ec; exact Ef).
  set (u1 := completed_row (w_clock w1) c u) in *.
  destruct Hadv as (P1 & _ & P3 & P4).
  assert (HW : worked O b d ji c0 (firstn (S (length rows)) (j_tasks d)) (rows ++ [u1]) s (j_context j')) by (eapply worked_more; eauto).
  assert (Hj' : j_id j' = j_id j /\ j_parent j' = j_parent j /\ j_tasks j' = j_tasks j /\ j_output j' = j_output j /\ j_defaults j' = j_defaults j /\ j_taskcount j' = j_taskcount j /\ j_state j' = j_state j).
  { rewrite P4. repeat split. }
  destruct Hj' as (Q1 & Q2 & Q3 & Q4 & Q5 & Q6 & Q7).
  rewrite G7 in Hd2. replace (Z.to_nat (j_position j)) with (S (length rows)) in Hd2 by lia.
  destruct Hev as [Hev1 _]. destruct (Hev1 (j_context j') def2 (nth_error_In _ _ Hd2)) as (t2 & He2).
  unfold next_instance in Hnx. rewrite He2 in Hnx.
  pose proof (find_job_id _ _ _ Hfj) as Hji. rewrite C2 in Hji.
  destruct (def_facts _ def2 _ t2 Hd2 He2) as (_ & _ & Hpar2).
  assert (Hpd : t_parent def2 = noid).
  { pose proof (eval_task_core _ _ _ He2) as (_ & _ & E3 & _). congruence. }
  set (u2 := db_task nx).
  assert (U2 : t_id u2 = t_id nx /\ t_job u2 = t_job nx /\ t_parent u2 = t_parent nx /\ t_position u2 = t_position nx /\ t_created u2 = t_created nx /\ body u2 = body nx) by repeat split.
  destruct U2 as (U1 & U2 & U3 & U4 & U5 & U6).
  assert (N : t_id nx = w_fresh w1 /\ t_job nx = j_id j' /\ t_parent nx = noid /\ t_position nx = j_position j' /\ t_created nx = Some (w_clock w1) /\ body nx = body t2) by (rewrite Hnx, Hpd; repeat split).
  destruct N as (N1 & N2 & N3 & N4 & N5 & N6).
  exists w', (rows ++ [u1]), u2, j', nx. rewrite app_length. cbn [length]. split; [exact Ef'|].
  assert (HR' : reachable O (mkConfig w' [])).
  { change w' with (fst (w', S k)). rewrite <- Ef'. apply fifo_step_reachable; [exact Hb|]. exact (a_reach _ _ _ _ _ _ _ _ _ _ _ _ _ _ A). }
  split; [|split; [|lia]].
  - constructor; try rewrite app_length; cbn [length].
    + exact HR'.
    + rewrite T1, G3. fold u2. rewrite put_last; [|exact Hn|reflexivity]. rewrite <- !app_assoc. reflexivity.
    + rewrite <- Hji. rewrite <- Hji in G4. apply (put_job_effect w1 w' j j'); [exact G4|exact Q1|exact T2].
    + intros i Hi. rewrite <- G5 by exact Hi. rewrite <- Hji in G4, Hi. destruct (put_job_effect w1 w' j j' G4 Q1 T2) as (_ & X & _). apply X. exact Hi.
    + congruence.
    + congruence.
    + congruence.
    + congruence.
    + congruence.
    + rewrite Q7. exact G11.
    + rewrite P1, G12. lia.
    + lia.
    + replace (length rows + 1)%nat with (S (length rows)) by lia. exact HW.
    + congruence.
    + congruence.
    + rewrite U4, N4, P1, G12. lia.
    + exists (new ++ [MTask QUEUE_COMPLETED c]). split; [|split; [|split]].
      * unfold published in T3. rewrite T3, G18. rewrite <- !app_assoc. reflexivity.
      * rewrite G19, app_assoc, (app_length _ [_]). cbn. lia.
      * rewrite <- app_assoc. rewrite <- G20, !handed_app. reflexivity.
      * apply Forall_app. split; [exact G21|repeat constructor].
  - exists def2, t2. replace (length rows + 1)%nat with (S (length rows)) by lia. split; [exact Hd2|]. split; [exact He2|]. split; [congruence|].
    rewrite U1, U4, U5, N1, N4, N5. rewrite Hnx. rewrite Hpd. rewrite Q1, Hji. reflexivity.
Qed.

Definition finished (w : world) (k : nat) (rows : list task) (j : job) : Prop :=
  k = length (w_hist w) /\ w_tasks w = w_tasks w0 ++ rows /\ find_job ji w = Some j /\ (forall i, i <> ji -> find_job i w = find_job i w0) /\
  j_state j = JCompleted /\ o_tmpl O (j_context j) None (j_output d) = inl (j_result j) /\
  j_position j = Z.of_nat (S (length (j_tasks d))) /\ j_progress j = 10000 /\
  exists new je, w_hist w = w_hist w0 ++ new ++ [MEvent "job.completed" je] /\ j_id je = ji /\ j_state je = JCompleted /\ j_result je = j_result j /\
    quiet new /\ worked O b d ji c0 (j_tasks d) rows (handed new) (j_context j).

Lemma complete_last w k rows u j s0 s c : at_task w k rows u j s0 s [MTask QUEUE_COMPLETED c] -> acceptable (t_state u) -> current j (length rows) u s0 s c ->
  S (length rows) = length (j_tasks d) ->
  exists w' rows' j', fifo O b 2 (w, k) = (w', S (S k)) /\ finished w' (S (S k)) rows' j'.
Proof.
  intros A Ha Hc Hlen. pose proof (at_fresh _ _ _ _ _ _ _ _ _ _ _ _ _ _ A) as Hn.
  assert (A1 := at_clock O b d w0 ji c0 _ _ _ _ _ _ _ _ (b_clock b k) A).
  pose proof A1 as [G1 G3 G4 G5 G6 G7 G8 G9 G10 G11 G12 G13 G14 G15 G16 G17 (new & G18 & G19 & G20 & G21)].
  pose proof (fifo_one O b w0 w k new _ [] G18 G19) as Ef.
  set (w1 := w <| w_clock := b_clock b k |> <| w_faults := [] |>) in *. assert (G2 : w_faults w1 = []) by reflexivity.
  pose proof Hc as (def & t & Hdef & He & Hbody & C1 & C2 & C3 & C4 & H).
  assert (Hin : In (MTask QUEUE_COMPLETED c) (w_hist w1)) by (rewrite G18; apply in_or_app; right; apply in_or_app; right; left; reflexivity).
  assert (Hcc : completion c) by (destruct H as [(_ & S & _)|(_ & S & _)]; [right|left]; exact S).
  assert (Hfu : find_task (t_id c) w1 = Some u) by (rewrite C1; exact (find_last w1 _ u G3 Hn)).
  assert (Hfj : find_job (t_job c) w1 = Some j) by (rewrite C2; exact G4).
  assert (Hpos : Z.of_nat (length (j_tasks j)) <= j_position j) by (rewrite G12, G7; lia).
  assert (Hne : j_tasks j <> []) by (rewrite G7; destruct (j_tasks d); [discriminate Hlen|discriminate]).
  destruct (C28_last_task_finishes_job O (mkConfig w1 []) (N.to_nat (w_fresh w1)) c u j G1 G2 Hin Hcc C3 Hfu Ha Hfj G11 Hne Hpos) as (w' & j' & m & E & Hadv & T1 & T2 & T3 & T4 & _).
  cbn [cw] in *. assert (Ec : consume O b k (MTask QUEUE_COMPLETED c) w1 = w') by (apply consume_coord; [reflexivity|exact E]).
  assert (Ef' : fifo_step O b (w, k) = (w', S k)) by (rewrite <- Ec; exact Ef).
  set (u1 := completed_row (w_clock w1) c u) in *.
  destruct Hadv as (P1 & P2 & P3 & P4).
  assert (HW : worked O b d ji c0 (firstn (S (length rows)) (j_tasks d)) (rows ++ [u1]) s (j_context j')) by (eapply worked_more; eauto).
  rewrite Hlen, firstn_all in HW.
  assert (Hj' : j_id j' = j_id j /\ j_output j' = j_output j) by (rewrite P4; repeat split).
  destruct Hj' as (Q1 & Q4). specialize (T4 G6).
  pose proof (find_job_id _ _ _ Hfj) as Hji. rewrite C2 in Hji.
  destruct Hev as [_ Hev2]. destruct (Hev2 (j_context j')) as (r & Hr).
  assert (Ho : output_of O j' = inl r) by (unfold output_of; rewrite Q4, G8; exact Hr).
  unfold announces in T4. rewrite Ho in T4. destruct T4 as (je & -> & K1 & K2 & K3 & K4).
  unfold finished_row in T2. rewrite Ho in T2. 
  set (jf := j' <| j_state := JCompleted |> <| j_completed := Some (w_clock w1) |> <| j_result := r |> <| j_deleteat := match deletion_time O j' (w_clock w1) with Some x => Some x | None => j_deleteat j' end |>) in *.
  assert (F : j_id jf = j_id j' /\ j_state jf = JCompleted /\ j_result jf = r /\ j_context jf = j_context j' /\ j_position jf = j_position j' /\ j_progress jf = j_progress j') by repeat split.
  destruct F as (F1 & F2 & F3 & F4 & F5 & F6). clearbody jf.
  set (w2 := w' <| w_clock := b_clock b (S k) |> <| w_faults := [] |>).
  assert (Ef2 : fifo_step O b (w', S k) = (w2, S (S k))).
  { unfold published in T3. rewrite (fifo_one O b w0 w' (S k) (new ++ [MTask QUEUE_COMPLETED c]) (MEvent "job.completed" je) []); [reflexivity| |].
    - rewrite T3, G18. rewrite <- !app_assoc. reflexivity.
    - rewrite G19, app_assoc, (app_length _ [_]). cbn. lia. }
  exists w2, (rows ++ [u1]), jf. split; [cbn [fifo]; rewrite Ef'; exact Ef2|].
  assert (Hh : w_hist w2 = w_hist w0 ++ (new ++ [MTask QUEUE_COMPLETED c]) ++ [MEvent "job.completed" je]).
  { unfold published in T3. change (w_hist w2) with (w_hist w'). rewrite T3, G18. rewrite <- !app_assoc. reflexivity. }
  split; [rewrite Hh; rewrite !app_length; rewrite G19, app_length; cbn; lia|].
  split; [change (w_tasks w2) with (w_tasks w'); rewrite T1, G3, put_last; [now rewrite <- app_assoc|exact Hn|reflexivity]|].
  assert (Hx : find_job ji w2 = Some jf /\ only_job ji w1 w2).
  { rewrite <- Hji in G4 |- *. apply (put_job_effect w1 w2 j jf); [exact G4|congruence|exact T2]. }
  destruct Hx as [X1 (X2 & _)]. split; [exact X1|]. split; [intros i Hi; rewrite X2 by exact Hi; now apply G5|].
  split; [exact F2|]. split; [rewrite F4, F3; exact Hr|]. split; [rewrite F5, P1, G12; lia|]. split.
  { rewrite F6. unfold rounds_to in P2. rewrite G10, G12, Hlen in P2. assert (0 < Z.of_nat (length (j_tasks d))) by lia. nia. }
  exists (new ++ [MTask QUEUE_COMPLETED c]), je. split; [exact Hh|]. split; [congruence|]. split; [exact K2|]. split; [congruence|]. split; [exact G21|].
  rewrite F4, G20. exact HW.
Qed.

(** from the completion of one task to the end of the job *)
Lemma to_the_end n : forall w k rows u j s0 s m, at_task w k rows u j s0 s [m] -> launched j (length rows) u s0 s m ->
  (length (j_tasks d) - length rows <= n)%nat ->
  exists N w' k' rows' j', fifo O b N (w, k) = (w', k') /\ finished w' k' rows' j'.
Proof.
  induction n as [|n IH]; intros w k rows u j s0 s m A Hl Hn.
  { pose proof (a_len _ _ _ _ _ _ _ _ _ _ _ _ _ _ A). lia. }
  destruct (to_ready _ _ _ _ _ _ _ _ A Hl) as (N1 & w1 & k1 & u1 & j1 & c & E1 & A1 & Ha & Hc).
  pose proof (a_len _ _ _ _ _ _ _ _ _ _ _ _ _ _ A1) as Hlen.
  destruct (Nat.eq_dec (S (length rows)) (length (j_tasks d))) as [Heq|Hneq].
  - destruct (complete_last _ _ _ _ _ _ _ _ A1 Ha Hc Heq) as (w2 & rows' & j' & E2 & F).
    exists (N1 + 2)%nat, w2, (S (S k1)), rows', j'. split; [|exact F]. rewrite fifo_add, E1. exact E2.
  - destruct (complete_more _ _ _ _ _ _ _ _ A1 Ha Hc) as (w2 & rows2 & u2 & j2 & x & E2 & A2 & Hx & Hr); [lia|].
    destruct (from_pending _ _ _ _ _ _ _ A2 Hx) as (w3 & u3 & s3 & m3 & E3 & A3 & L3).
    destruct (IH _ _ _ _ _ _ _ _ A3 L3) as (N4 & w4 & k4 & rows4 & j4 & E4 & F); [lia|].
    exists (N1 + (2 + N4))%nat, w4, k4, rows4, j4. split; [|exact F]. rewrite fifo_add, E1. cbn [fifo Nat.add]. rewrite E2, E3. exact E4.
Qed.
End Task.

(** ** From the submission *)
Lemma instantiate_any O j def pos i clk t : eval_task (o_tmpl O (j_context j) None) def = inl t ->
  instantiate O j def pos i clk = identity i (j_id j) (t_parent def) TPending pos (Some clk) t.
Proof.
  intros He. pose proof (instantiate_next O (j <| j_position := pos |>) def i clk pos eq_refl) as H.
  unfold next_instance in H. change (j_context (j <| j_position := pos |>)) with (j_context j) in H. rewrite He in H. exact H.
Qed.

Lemma find_job_app w w' j : w_jobs w' = w_jobs w ++ [j] -> find_job (j_id j) w = None ->
  find_job (j_id j) w' = Some j /\ forall i, i <> j_id j -> find_job i w' = find_job i w.
Proof.
  intros E Hn. unfold find_job in *. rewrite E. clear E. induction (w_jobs w) as [|x l IH]; cbn.
  - rewrite N.eqb_refl. split; [reflexivity|]. intros i Hi. destruct (N.eqb (j_id j) i) eqn:Ei; [apply N.eqb_eq in Ei; congruence|reflexivity].
  - cbn in Hn. destruct (N.eqb (j_id x) (j_id j)) eqn:Ex; [discriminate|]. destruct (IH Hn) as [I1 I2]. split; [exact I1|].
    intros i Hi. destruct (N.eqb (j_id x) i); auto.
Qed.

Lemma job_runs O b w0 d : reachable O (mkConfig w0 []) -> w_faults w0 = [] -> accepted d -> Forall regular (j_tasks d) ->
  evaluable O d -> served O d -> completes_all b ->
  exists N w' k' rows j',
    fifo O b N (fst (run (api_submit d) w0), length (w_hist w0)) = (w', k') /\
    finished O b d w0 (w_fresh w0) (j_context (new_job (w_fresh w0) (w_clock w0) d)) w' k' rows j'.
Proof.
  intros HR Hf Hacc Hreg Hev Hsv Hb.
  pose proof (reachable_inv O (mkConfig w0 []) HR) as HI. cbn [cw] in HI.
  pose proof (submit_reachable O w0 d HR Hacc) as HR1.
  set (ji := w_fresh w0) in *. set (j0 := new_job ji (w_clock w0) d).
  assert (Hnj : find_job ji w0 = None).
  { destruct (find_job ji w0) as [x|] eqn:E; [|reflexivity]. pose proof (find_job_id _ _ _ E). apply find_job_in in E. apply (inv_job_fresh _ HI) in E. unfold ji in *. lia. }
  set (w1 := w0 <| w_fresh := N.succ ji |> <| w_jobs := w_jobs w0 ++ [j0] |> <| w_hist := w_hist w0 ++ [MJob j0] |>).
  assert (E1 : run (api_submit d) w0 = (w1, Ok tt)).
  { unfold api_submit. rewrite run_bind, run_new_id, run_bind, run_now, run_bind. fold ji.
    change (w_clock (w0 <| w_fresh := N.succ ji |>)) with (w_clock w0). fold j0.
    rewrite run_create_job; [|exact Hf|exact Hnj]. unfold publish_job. rewrite run_publish by exact Hf. reflexivity. }
  rewrite E1 in HR1 |- *. cbn [fst] in *.
  destruct Hacc as (Hne & Hpris & Hdf). destruct (j_tasks d) as [|def ds] eqn:Ed; [contradiction|].
  set (c0 := j_context j0). destruct Hev as [Hev1 Hev2]. destruct (Hev1 c0 def) as (t & He); [rewrite Ed; left; reflexivity|].
  set (k := length (w_hist w0)).
  set (w2 := w1 <| w_clock := b_clock b k |> <| w_faults := [] |>).
  assert (Hh1 : w_hist w1 = w_hist w0 ++ [] ++ MJob j0 :: []) by reflexivity.
  assert (Ef := fifo_one O b w0 w1 k [] (MJob j0) [] Hh1). rewrite app_nil_r in Ef. specialize (Ef eq_refl).
  assert (HR2 : reachable O (mkConfig w2 [])) by (apply clock_reachable; exact HR1).
  pose proof (reachable_inv O (mkConfig w2 []) HR2) as HI2. cbn [cw] in HI2.
  set (ti := w_fresh w2).
  set (x := identity ti ji noid TPending 1 (Some (w_clock w2)) t).
  assert (Hpd : t_parent def = noid) by (inversion Hpris as [|? ? P _]; apply pristine_eq in P; destruct P as (_ & _ & P & _); exact P).
  assert (Hinst : instantiate O j0 def 1 ti (w_clock w2) = x) by (rewrite (instantiate_any O j0 def 1 ti (w_clock w2) t He), Hpd; reflexivity).
  destruct (find_job_app w0 w2 j0 eq_refl Hnj) as [Hj2 Ho2]. change (j_id j0) with ji in Hj2, Ho2.
  set (w3 := w2 <| w_fresh := N.succ ti |> <| w_tasks := w_tasks w0 ++ [db_task x] |>).
  set (j1 := j0 <| j_state := JScheduled |> <| j_started := Some (w_clock w2) |> <| j_position := 1 |>).
  set (w4 := w3 <| w_jobs := put_job j1 (w_jobs w3) |>).
  assert (Hj3 : find_job (j_id j0) w3 = Some j0) by exact Hj2.
  destruct (put_job_effect w3 w4 j0 j1 Hj3 eq_refl eq_refl) as (Hj4 & Ho4 & _). change (j_id j0) with ji in Hj4, Ho4.
  set (u := db_task x).
  assert (U : t_id u = ti /\ t_job u = ji /\ t_parent u = noid /\ t_position u = 1 /\ t_created u = Some (w_clock w2) /\ body u = body t) by repeat split.
  destruct U as (U1 & U2 & U3 & U4 & U5 & U6).
  assert (Hfresh : ~ In (t_id u) (map t_id (w_tasks w0))).
  { rewrite U1. intros Hin. apply in_map_iff in Hin as (y & Hy & Hin). apply (inv_task_fresh _ HI2) in Hin. unfold ti in Hy. lia. }
  assert (Hinstance : instance O d ji j1 0 u x).
  { exists def, t. rewrite Ed. split; [reflexivity|]. split; [exact He|]. split; [exact U6|]. rewrite U1, U4, U5. reflexivity. }
  rewrite <- Ed in Hpris, Hreg.
  destruct (sched_current O b d ji Hpris Hreg Hsv w4 (w_tasks w0) u j1 x 0) as (w' & u' & m & E & B1 & B2 & B3 & B4 & B5 & B6); [reflexivity|reflexivity|exact Hfresh|exact Hj4|reflexivity|exact Hinstance|].
  assert (Erun : run (deliver O (N.to_nat (w_fresh w2)) (MJob j0)) w2 = (w', Ok tt)).
  { rewrite deliver_job. unfold job_wrapper. rewrite run_catch. change (job_handler O j0) with (start_job O j0). unfold start_job.
    change (j_tasks j0) with (j_tasks d). rewrite Ed. rewrite run_bind, run_now, run_bind, run_new_id. fold ti. rewrite Hinst.
    rewrite run_bind. rewrite (run_create_task x _ j0); [|reflexivity| |exact Hj2].
    2:{ change (find_task ti w2 = None). apply fresh_not_found. apply Inv_ids_below. exact HI2. }
    rewrite run_bind, run_now, run_bind. change (w_clock (w2 <| w_fresh := N.succ ti |> <| w_tasks := w_tasks (w2 <| w_fresh := N.succ ti |>) ++ [db_task x] |>)) with (w_clock w2).
    rewrite (run_update_job (j_id j0) _ w3 j0 j1 tt); [|reflexivity|exact Hj3|reflexivity].
    change (tstate_eqb (t_state x) TFailed) with false. cbn iota. fold w4. rewrite E. reflexivity. }
  assert (Ec : consume O b k (MJob j0) w2 = w') by (apply consume_coord; [exact I|exact Erun]).
  assert (Ef' : fifo_step O b (w1, k) = (w', S k)) by (rewrite <- Ec; exact Ef).
  assert (Hjb : forall i, find_job i w' = find_job i w4) by (intros i; unfold find_job; now rewrite B2).
  destruct B5 as (I1 & I2 & I3 & I4 & I5 & I6).
  assert (A : at_task O b d w0 ji c0 w' (S k) [] u' j1 [] (handed [m]) [m]).
  { constructor.
    - change w' with (fst (w', S k)). rewrite <- Ef'. apply fifo_step_reachable; assumption.
    - rewrite app_nil_r. exact B1.
    - rewrite Hjb. exact Hj4.
    - intros i Hi. rewrite Hjb, Ho4 by exact Hi. change (find_job i w3) with (find_job i w2). now apply Ho2.
    - reflexivity.
    - reflexivity.
    - reflexivity.
    - reflexivity.
    - reflexivity.
    - left. reflexivity.
    - reflexivity.
    - rewrite Ed. cbn. lia.
    - constructor.
    - congruence.
    - congruence.
    - rewrite I4, U4. reflexivity.
    - exists [MJob j0]. split; [rewrite B4; cbn; now rewrite <- app_assoc|]. split; [rewrite app_length; cbn; unfold k; lia|]. split; [reflexivity|].
      constructor; [exact I|]. destruct B6 as [(c & -> & _)|(y & def' & t' & -> & _)]; repeat constructor. }
  assert (L : launched O b d ji j1 (@length task []) u' [] (handed [m]) m).
  { destruct B6 as [(c & M1 & M2 & M3 & M4)|(y & def' & t' & M1 & M2 & M3 & M4 & M5 & M6 & M7 & M8 & M9 & M10 & M11 & M12)].
    + left. exists c. split; [exact M1|]. split; [exact M2|]. rewrite M3. apply M4.
    + right. exists y, def', t'. rewrite I1, I4, I5, I6. repeat (split; [assumption|]). rewrite M1. cbn. rewrite M3. reflexivity. }
  destruct (to_the_end O b d w0 ji c0 Hb Hpris Hreg (conj Hev1 Hev2) Hsv (length (j_tasks d)) w' (S k) [] u' j1 [] (handed [m]) m A L) as (N & w5 & k5 & rows & j5 & E5 & F5); [cbn; lia|].
  exists (S N), w5, k5, rows, j5. split; [cbn [fifo]; rewrite Ef'; exact E5|exact F5].
Qed.
