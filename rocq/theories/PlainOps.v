(** Which operations can set a job to SCHEDULED, and which can publish a restart request. *)
From Verif Require Export InvMsgs SpecTrace.
Open Scope string_scope.
Open Scope list_scope.
Open Scope Z_scope.

Definition ops {A} (G : world -> world -> Prop) (p : prog A) : Prop := guar (fun _ => True) G p any.

Section Ops.
Variable G : world -> world -> Prop.
Lemma ops_done {A} (r : outcome A) : ops G (Done r).
Proof. apply guar_done. exact I. Qed.
Lemma ops_op {A} (f : act A) : (forall w, G w (fst (f w))) -> ops G (op f).
Proof. intros H. apply guar_op. intros w _. repeat split; auto. Qed.
Lemma ops_bind {A B} (p : prog A) (f : A -> prog B) : ops G p -> (forall a, ops G (f a)) -> ops G (bind p f).
Proof.
  intros Hp Hf. unfold ops in *. apply guar_bind. eapply guar_conseq; [|exact Hp].
  intros [a|e m| |] _; try exact I. apply Hf.
Qed.
Lemma ops_catch {A} (p : prog A) h : ops G p -> (forall e m, ops G (h e m)) -> ops G (catch p h).
Proof.
  intros Hp Hh. unfold ops in *. apply guar_catch. eapply guar_conseq; [|exact Hp].
  intros [a|e m| |] _; try exact I. apply Hh.
Qed.
Lemma ops_with_msg {A} t (p : prog A) : ops G p -> ops G (with_msg t p).
Proof. intros. apply ops_catch; [auto|]. intros; apply ops_done. Qed.
Lemma ops_step {A B} (f : act B) (k : outcome B -> prog A) w : ops G (Step f k) -> G w (fst (f w)) /\ ops G (k (snd (f w))).
Proof. intros H. eapply guar_step in H as (_ & ? & ?); [split; eassumption|exact I]. Qed.
End Ops.

Lemma ops_weaken {A} (G G' : world -> world -> Prop) (p : prog A) :
  (forall w w', G w w' -> G' w w') -> ops G p -> ops G' p.
Proof. apply guar_weaken_G. Qed.

(** [plain w w']: no job newly SCHEDULED or set back to an earlier position, no new restart request. *)
Definition jr (j j' : job) : Prop :=
  (j_state j' = JScheduled -> j_state j = JScheduled) /\ j_position j <= j_position j'.
Definition nostart (w w' : world) : Prop :=
  trel j_id jr (fun j => j_state j <> JScheduled) (w_jobs w) (w_jobs w').
Definition norestart (w w' : world) : Prop :=
  forall j, In (MJob j) (w_hist w') -> j_state j = JRestart -> In (MJob j) (w_hist w).
Definition plain (w w' : world) : Prop := nostart w w' /\ norestart w w'.

Lemma jr_refl j : jr j j.
Proof. split; auto; lia. Qed.
Lemma nostart_trans a b c : nostart a b -> nostart b c -> nostart a c.
Proof.
  apply trel_trans; unfold jr.
  - intros x y z [] []. split; auto; lia.
  - intros x y H [] E. auto.
Qed.
Lemma plain_refl w w' : w_jobs w' = w_jobs w -> w_hist w' = w_hist w -> plain w w'.
Proof.
  intros E1 E2. split; [|intros j; rewrite E2; auto]. unfold nostart. rewrite E1. apply trel_refl, jr_refl.
Qed.
Lemma plain_trans a b c : plain a b -> plain b c -> plain a c.
Proof. intros [A1 A2] [B1 B2]. split; [eapply nostart_trans; eauto|]. intros j Hin Hs. apply A2; auto. Qed.

Lemma plain_faulty {A} (f : act A) : (forall w, plain w (fst (f w))) -> forall w, plain w (fst (faulty f w)).
Proof.
  intros H w. unfold faulty. destruct (w_faults w) as [|[|] r]; cbn [fst].
  - apply H.
  - apply plain_refl; reflexivity.
  - eapply plain_trans; [|apply H]. now apply plain_refl.
Qed.
Lemma plain_get_task i w : plain w (fst (a_get_task i w)).
Proof. apply plain_faulty. intros w'. destruct (find_task i w'); now apply plain_refl. Qed.
Lemma plain_get_job i w : plain w (fst (a_get_job i w)).
Proof. apply plain_faulty. intros w'. destruct (find_job i w'); now apply plain_refl. Qed.
Lemma plain_get_node i w : plain w (fst (a_get_node i w)).
Proof. apply plain_faulty. intros w'. destruct (find_node i w'); now apply plain_refl. Qed.
Lemma plain_get_active i w : plain w (fst (a_get_active i w)).
Proof. apply plain_faulty. intros w'. now apply plain_refl. Qed.
Lemma plain_get_next i w : plain w (fst (a_get_next i w)).
Proof. apply plain_faulty. intros w'. destruct (next_created i w'); now apply plain_refl. Qed.
Lemma plain_update_task {A} i (f : task -> outcome (task * A)) w : plain w (fst (a_update_task i f w)).
Proof.
  apply plain_faulty. intros w'. destruct (find_task i w') as [u|]; [|now apply plain_refl].
  destruct (f u) as [[]| | |]; now apply plain_refl.
Qed.
(** a job update that keeps the id, does not schedule and does not move backwards *)
Definition noscheds {A} (f : job -> outcome (job * A)) : Prop :=
  forall u u' a, f u = Ok (u', a) -> j_id u' = j_id u /\ jr u u'.
Lemma plain_update_job {A} i (f : job -> outcome (job * A)) w : noscheds f -> plain w (fst (a_update_job i f w)).
Proof.
  intros Hf. apply plain_faulty. intros w'. destruct (find_job i w') as [u|] eqn:E; [|now apply plain_refl].
  destruct (f u) as [[u' a]| | |] eqn:Ef; try now apply plain_refl.
  split; [|intros j; auto]. destruct (Hf _ _ _ Ef) as [Hid Hjr].
  unfold nostart. cbn [fst]. change (w_jobs (w' <| w_jobs := put_job u' (w_jobs w') |>)) with (tput j_id u' (w_jobs w')).
  eapply trel_put; eauto using jr_refl.
Qed.
Lemma plain_create_task t w : plain w (fst (a_create_task t w)).
Proof. apply plain_faulty. intros w'. repeat match goal with |- context [if ?b then _ else _] => destruct b | |- context [match ?x with _ => _ end] => destruct x end; now apply plain_refl. Qed.
Lemma plain_create_job j w : j_state j = JPending -> plain w (fst (a_create_job j w)).
Proof.
  intros Hs. apply plain_faulty. intros w'. destruct (existsb _ _) eqn:E; [now apply plain_refl|].
  split; [|intros j'; auto]. unfold nostart. cbn [fst].
  change (w_jobs (w' <| w_jobs := w_jobs w' ++ [j] |>)) with (w_jobs w' ++ [j]).
  apply trel_app; [apply jr_refl|now apply tfind_none|congruence].
Qed.
Lemma plain_publish m w : (forall j, m = MJob j -> j_state j <> JRestart) -> plain w (fst (a_publish m w)).
Proof.
  intros Hm. apply plain_faulty. intros w'. split; [apply trel_refl, jr_refl|].
  intros j Hin Hs. cbn in Hin. apply in_app_or in Hin as [?|[->|[]]]; [auto|]. exfalso. eapply Hm; eauto.
Qed.
Lemma plain_abind {A B} (f : act A) (g : A -> act B) :
  (forall w, plain w (fst (f w))) -> (forall a w, plain w (fst (g a w))) -> forall w, plain w (fst (abind f g w)).
Proof.
  intros Hf Hg w. unfold abind. pose proof (Hf w) as H. destruct (f w) as [w1 [a|e m| |]]; cbn [fst] in *; auto.
  eapply plain_trans; [exact H|apply Hg].
Qed.
Lemma plain_with_tx {A} (b : act A) : (forall w, plain w (fst (b w))) -> forall w, plain w (fst (a_with_tx b w)).
Proof.
  intros Hb w. unfold a_with_tx.
  assert (H : plain w (fst (b (w <| w_auto := [] |>)))) by (eapply plain_trans; [|apply Hb]; now apply plain_refl).
  assert (Hr : forall w1, plain w w1 -> plain w (rollback w w1)).
  { intros w1 [_ H2]. split; [apply trel_refl, jr_refl|]. intros j; cbn. apply H2. }
  destruct (b (w <| w_auto := [] |>)) as [w1 [a|e m| |]]; cbn [fst] in *; auto.
  assert (H2 : plain w (fst (faulty (aret tt) w1))).
  { eapply plain_trans; [exact H|]. apply plain_faulty. intros. now apply plain_refl. }
  destruct (faulty (aret tt) w1) as [w2 [?|e m| |]]; cbn [fst] in *; auto.
Qed.

Section Handlers.
Variable O : oracle.

Ltac leaf :=
  match goal with
  | |- ops plain (Done _) => apply ops_done
  | |- ops plain (ret _) => apply ops_done
  | |- ops plain (fail _) => apply ops_done
  | |- ops plain panic => apply ops_done
  | |- ops plain (get_task _) => apply ops_op, plain_get_task
  | |- ops plain (get_job _) => apply ops_op, plain_get_job
  | |- ops plain (get_node _) => apply ops_op, plain_get_node
  | |- ops plain (get_active _) => apply ops_op, plain_get_active
  | |- ops plain (update_task _ _) => apply ops_op, plain_update_task
  | |- ops plain (create_task _) => apply ops_op, plain_create_task
  | |- ops plain (publish_task _ _) => apply ops_op; intros ?; apply plain_publish; discriminate
  | |- ops plain (publish_event _ _) => apply ops_op; intros ?; apply plain_publish; discriminate
  | |- ops plain now => apply ops_op; intros ?; now apply plain_refl
  | |- ops plain new_id => apply ops_op; intros ?; now apply plain_refl
  end.
Ltac walk :=
  repeat first
  [ leaf
  | match goal with
    | |- ops plain (with_msg _ _) => apply ops_with_msg
    | |- ops plain (bind _ _) => apply ops_bind; [|intros ?]
    | |- ops plain (catch _ _) => apply ops_catch; [|intros ? ?] end
  | match goal with |- ops plain (if ?b then _ else _) => destruct b
                  | |- ops plain (match ?x with _ => _ end) => destruct x end ].
Ltac nosched := let u := fresh "u" in let u' := fresh in let a := fresh in let E := fresh "E" in
  intros u u' a E; cbv [modi] in E;
  repeat match type of E with (if ?b then _ else _) = _ => destruct b eqn:? | (match ?x with _ => _ end) = _ => destruct x eqn:? end;
  try discriminate E; injection E as <- <-; unfold jr;
  repeat match goal with |- context [if ?b then _ else _] => destruct b eqn:? end;
  cbn [j_id j_state j_position set]; repeat split; auto; try discriminate; try (cbn; lia).

Lemma plain_cancel_tasks l : ops plain (cancel_tasks l).
Proof.
  induction l as [|t l IH]; cbn [cancel_tasks]; walk; try exact IH.
  apply ops_op. intros ?. apply plain_publish. intros j E; injection E as <-. discriminate.
Qed.
Lemma plain_cancel_active i : ops plain (cancel_active_tasks i).
Proof. unfold cancel_active_tasks. walk. apply plain_cancel_tasks. Qed.
Lemma plain_fail_job j : ops plain (fail_job j).
Proof.
  unfold fail_job. walk; [|apply plain_cancel_active].
  apply ops_op. intros w. apply plain_update_job. nosched.
Qed.
Lemma plain_cancel_handler j : ops plain (cancel_handler j).
Proof.
  unfold cancel_handler. walk; try apply plain_cancel_active.
  - apply ops_op. intros w. apply plain_update_job. nosched.
  - apply ops_op. intros w. apply plain_publish. intros j' E; injection E as <-. discriminate.
Qed.
Lemma plain_schedule_task t : ops plain (schedule_task O t).
Proof.
  assert (Hpj : forall pj s n i b, ops plain (create_job (make_subjob pj t s n i b))) by (intros; apply ops_op; intros; now apply plain_create_job).
  assert (Hpp : forall pj s n i b, ops plain (publish_job (make_subjob pj t s n i b))).
  { intros; apply ops_op; intros; apply plain_publish. intros j' E; injection E as <-; discriminate. }
  unfold schedule_task, schedule_parallel, schedule_each, schedule_attached, schedule_detached, schedule_regular.
  walk; auto.
  - generalize (p_tasks p). induction l as [|q l IH]; cbn [parallel_children]; walk; exact IH.
  - generalize (e_task e), 0. induction l as [|q l IH]; intros def ix; cbn [each_children]; walk; apply IH.
Qed.
Lemma plain_pending t : ops plain (pending_handler O t).
Proof. unfold pending_handler, skip_task. walk. apply plain_schedule_task. Qed.
Lemma plain_mark_running j : ops plain (mark_running j).
Proof. unfold mark_running. apply ops_op. intros w. apply plain_update_job. nosched. Qed.
Lemma plain_complete_job j : ops plain (complete_job O j).
Proof. unfold complete_job. walk. apply ops_op. intros w. apply plain_update_job. unfold complete_job_modify. nosched. Qed.
Lemma plain_restart_job j : ops plain (restart_job O j).
Proof. unfold restart_job. walk. apply ops_op. intros w. apply plain_update_job. nosched. Qed.

(** all of start_job after its update *)
Lemma plain_job_handler j : j_state j <> JPending -> ops plain (job_handler O j).
Proof.
  intros H. unfold job_handler.
  destruct (j_state j); try easy; auto using plain_cancel_handler, plain_restart_job, plain_complete_job, plain_fail_job, plain_mark_running, ops_done.
Qed.
Lemma plain_error t : ops plain (error_handler O t).
Proof. unfold error_handler. walk. apply plain_job_handler. discriminate. Qed.

Lemma plain_put_context t w : plain w (fst (a_put_context t w)).
Proof.
  unfold a_put_context. destruct (_ && _)%bool; [|now apply plain_refl]. apply plain_update_job. nosched.
Qed.
Lemma plain_bump_each i w : plain w (fst (a_bump_each i w)).
Proof.
  apply plain_faulty. intros w'. destruct (find_task i w') as [u|]; [|now apply plain_refl].
  destruct (t_each u) as [e|]; [|now apply plain_refl]. cbn zeta.
  match goal with |- context [match ?X w' with _ => _ end] => assert (H : plain w' (fst (X w'))); [|destruct (X w') as [w1 [|? ?| |]] eqn:?] end; cbn [fst] in *; auto.
  - destruct (_ && _)%bool; [|now apply plain_refl]. unfold a_release_next.
    apply plain_abind; [apply plain_get_next|intros nx w1].
    apply plain_abind; [apply plain_update_task|intros [] w2].
    apply plain_abind; [intros; now apply plain_refl|intros [] w3]. apply plain_publish; discriminate.
Qed.
Lemma plain_complete_each t w : plain w (fst (a_complete_each t w)).
Proof.
  unfold a_complete_each. apply plain_abind; [apply plain_update_task|intros [] w1].
  apply plain_abind; [apply plain_bump_each|intros b w2]. apply plain_abind; [apply plain_put_context|intros [] w3]. now apply plain_refl.
Qed.
Lemma plain_complete_parallel t w : plain w (fst (a_complete_parallel t w)).
Proof.
  unfold a_complete_parallel. apply plain_abind; [apply plain_update_task|intros [] w1].
  apply plain_abind; [apply plain_update_task|intros b w2]. apply plain_abind; [apply plain_put_context|intros [] w3]. now apply plain_refl.
Qed.
Lemma plain_complete_top t w : plain w (fst (a_complete_top t w)).
Proof.
  unfold a_complete_top. apply plain_abind; [apply plain_update_task|intros [] w1]. apply plain_update_job. unfold advance_job. nosched.
Qed.
Lemma plain_complete_task fuel : forall t, ops plain (complete_task O fuel t).
Proof.
  induction fuel as [|fuel IH]; intros t; cbn [complete_task].
  - destruct (has_id _); [apply ops_done|]. unfold complete_top. walk; [apply ops_op, plain_with_tx, plain_complete_top|apply plain_job_handler; discriminate].
  - destruct (has_id _).
    + walk; auto; apply ops_op, plain_with_tx; [apply plain_complete_parallel|apply plain_complete_each].
    + unfold complete_top. walk; [apply ops_op, plain_with_tx, plain_complete_top|apply plain_job_handler; discriminate].
Qed.
Lemma plain_wrapper h t : ops plain (h t) -> ops plain (task_wrapper O h t).
Proof. intros H. unfold task_wrapper. apply ops_catch; [exact H|]. intros e m. walk; apply plain_error. Qed.
Lemma plain_heartbeat n : ops plain (heartbeat_handler n).
Proof.
  unfold heartbeat_handler. walk; apply ops_op; intros w.
  - unfold a_node_known. destruct (w_faults w) as [|[|] r]; now apply plain_refl.
  - apply plain_faulty. intros w'. destruct (find_node _ _); now apply plain_refl.
  - apply plain_faulty. intros w'. destruct (existsb _ _); now apply plain_refl.
Qed.

Lemma plain_deliver fuel m :
  (forall j, m = MJob j -> j_state j <> JPending) -> ops plain (deliver O fuel m).
Proof.
  intros Hm. unfold deliver. destruct m as [q t|j|tp j|t|n].
  - repeat match goal with |- ops plain (if ?b then _ else _) => destruct b end; try apply plain_wrapper.
    + apply plain_pending.
    + unfold completed_handler. walk; apply plain_complete_task.
    + unfold started_handler. walk. apply plain_job_handler; discriminate.
    + apply plain_error.
    + unfold redelivered_handler. walk.
    + apply ops_done.
  - unfold job_wrapper. apply ops_catch; [apply plain_job_handler; eauto|]. intros e x. walk. apply plain_job_handler; discriminate.
  - apply ops_done.
  - apply plain_wrapper. unfold progress_handler. walk. apply ops_op. intros w. apply plain_update_job. nosched.
  - apply plain_heartbeat.
Qed.

(** [norestart] alone holds for start_job as well. *)
Lemma norestart_trans a b c : norestart a b -> norestart b c -> norestart a c.
Proof. intros A B j Hin Hs. apply A; auto. Qed.
Lemma ops_nr {A} (p : prog A) : ops plain p -> ops norestart p.
Proof. apply ops_weaken. intros ? ? [_ ?]; auto. Qed.
Lemma norestart_start j : ops norestart (job_wrapper O (job_handler O) j).
Proof.
  destruct (jstate_eqb (j_state j) JPending) eqn:E.
  2:{ apply ops_nr. unfold job_wrapper. apply ops_catch; [apply plain_job_handler; intros Hs; rewrite Hs in E; discriminate|].
      intros e x. walk. apply plain_job_handler; discriminate. }
  unfold job_wrapper. apply ops_catch.
  2:{ intros e x. apply ops_nr. walk. apply plain_job_handler; discriminate. }
  unfold job_handler. destruct (j_state j); try discriminate. unfold start_job.
  destruct (j_tasks j) as [|t0 ts]; [apply ops_done|].
  apply ops_bind; [apply ops_nr; leaf|intros n]. apply ops_bind; [apply ops_nr; leaf|intros i].
  apply ops_bind; [apply ops_nr; leaf|intros []]. apply ops_bind; [apply ops_nr; leaf|intros n2].
  apply ops_bind.
  - apply ops_op. intros w. unfold a_update_job, faulty. 
    assert (H : forall w', w_hist (fst (match find_job (j_id j) w' with
      | None => (w', Err "error fetching job from db" None)
      | Some u => match modi (fun u : job => u <| j_state := JScheduled |> <| j_started := Some n2 |> <| j_position := 1 |>) u with
         | Ok (u', a) => (w' <| w_jobs := put_job u' (w_jobs w') |>, Ok a) | Err e m => (w', Err e m) | Panic => (w', Panic) | OutOfFuel => (w', OutOfFuel) end end)) = w_hist w').
    { intros w'. destruct (find_job (j_id j) w'); reflexivity. }
    destruct (w_faults w) as [|[|] r]; intros j' Hin Hs; [rewrite H in Hin|cbn in Hin|rewrite H in Hin]; exact Hin.
  - intros []. apply ops_nr. destruct (tstate_eqb _ _); [walk; apply plain_fail_job|apply plain_pending].
Qed.
Lemma norestart_deliver fuel m : ops norestart (deliver O fuel m).
Proof.
  destruct m as [q t|j|tp j|t|n]; try (apply ops_nr, plain_deliver; discriminate). apply norestart_start.
Qed.
Lemma norestart_api o p : api_prog o = Some p -> (forall i, o <> ORestart i) -> ops norestart p.
Proof.
  intros E Hn. apply ops_nr. destruct o; cbn [api_prog] in E; try discriminate; injection E as <-.
  - unfold api_submit. walk; apply ops_op; intros w; [now apply plain_create_job|]. apply plain_publish. intros j E; injection E as <-. discriminate.
  - unfold api_cancel. walk. apply ops_op; intros w; apply plain_publish. intros j E; injection E as <-. discriminate.
  - exfalso. eapply Hn; eauto.
Qed.
End Handlers.
