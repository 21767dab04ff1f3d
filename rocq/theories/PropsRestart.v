(** Property theorems: restart (C24), handler errors (C26), expressions that cannot be evaluated (C27). Handlers alone, in any
    reachable state; for C26 with any pattern of failing operations up to the error. *)
From Verif Require Import SeqTools SpecFail EvalProofs InvSched InvMsgs Sim PropsSched PropsComplete PropsFail PropsState.
Open Scope string_scope.
Open Scope list_scope.
Open Scope Z_scope.

(** ** A program run alone stays within what the rely/guarantee proof says *)
Lemma run_wp {A} (I : world -> Prop) (R G : world -> world -> Prop) (HR : forall w, R w w) (HT : forall a b c, R a b -> R b c -> R a c) (p : prog A) : forall w0 Q w' r,
  wp I R G w0 p Q -> I w0 -> run p w0 = (w', r) -> I w' /\ R w0 w' /\ Q w' r.
Proof.
  induction p as [o|B f k IH]; cbn [wp run]; intros w0 Q w' r H HI E.
  - injection E as <- <-. auto.
  - destruct (H w0 (HR w0) HI) as (H1 & H2 & H3 & H4). destruct (f w0) as [w1 x]; cbn in *.
    destruct (IH x w1 Q w' r H4 H1 E) as (? & ? & ?). eauto.
Qed.

(** ** Failing a job without a parent *)
Definition failed_job (clk : option time) (j : job) : job :=
  match j_state j with JScheduled | JRunning => j <| j_state := JFailed |> <| j_failed := clk |> | _ => j end.
Lemma fail_job_run w jf j : NoDup (map t_id (w_tasks w)) -> w_faults w = [] -> find_job (j_id jf) w = Some j -> j_parent jf = noid ->
  reachable_workers w (j_id jf) ->
  let j' := failed_job (j_failed jf) j in
  exists w' ms, run (fail_job jf) w = (w', Ok tt) /\
    w_tasks w' = cancel_active (j_id jf) (w_tasks w) /\ notices w' (active_tasks (j_id jf) (w_tasks w)) ms /\
    w_jobs w' = put_job j' (w_jobs w) /\
    published w w' (ms ++ if jstate_eqb (j_state j') JFailed then [MEvent "job.failed" j'] else []).
Proof.
  intros Hnd Hf Hj Hp Hw j'. unfold fail_job. pose proof (find_job_id _ _ _ Hj) as Hji.
  set (w2 := w <| w_jobs := put_job j' (w_jobs w) |>).
  assert (E2 : run (update_job (j_id jf) (modi (fun u => if job_live (j_state u) then u <| j_state := JFailed |> <| j_failed := j_failed jf |> else u))) w = (w2, Ok tt)).
  { apply (run_update_job _ _ w j); [exact Hf|exact Hj|]. unfold modi, j', failed_job. destruct (j_state j); reflexivity. }
  rewrite run_bind, E2. rewrite (proj2 (has_id_false _) Hp).
  destruct (cancel_active_run (j_id jf) w2 w2 Hf Hnd eq_refl eq_refl) as (ms & Hms & Ec).
  { intros x Hx. destruct (Hw x Hx) as (m & Hm). eapply notice_transfer; [| |exact Hm]; [reflexivity|]. intros i y Hy.
    exact (find_put_job_some w w2 j' i y eq_refl Hy). }
  rewrite run_bind, Ec. set (w3 := w2 <| w_tasks := _ |> <| w_hist := _ |>).
  assert (Hj3 : find_job (j_id jf) w3 = Some j').
  { rewrite <- Hji. rewrite <- Hji in Hj. refine (proj1 (put_job_effect w w3 j j' Hj _ eq_refl)). unfold j', failed_job. destruct (j_state j); reflexivity. }
  rewrite run_bind, run_get_job, Hj3 by exact Hf.
  destruct (jstate_eqb (j_state j') JFailed).
  - unfold publish_event. rewrite run_publish by exact Hf. eexists. exists ms. split; [reflexivity|]. split; [reflexivity|].
    split; [eapply notices_ext; [| |exact Hms]; reflexivity|]. split; [reflexivity|]. unfold published. cbn. now rewrite <- app_assoc.
  - rewrite run_ret. eexists. exists ms. split; [reflexivity|]. split; [reflexivity|].
    split; [eapply notices_ext; [| |exact Hms]; reflexivity|]. split; [reflexivity|]. unfold published. cbn. now rewrite app_nil_r.
Qed.

(** ** C24 *)
Theorem C24_restart : forall O c fuel j u,
  reachable O c -> w_faults (cw c) = [] -> In (MJob j) (w_hist (cw c)) -> j_state j = JRestart ->
  find_job (j_id j) (cw c) = Some u -> j_state u = JFailed \/ j_state u = JCancelled ->
  (* the request carries the stored position and context *)
  j_position j = j_position u -> j_context j = j_context u ->
  exists w' def nx, run (deliver O fuel (MJob j)) (cw c) = (w', Ok tt) /\
    (* the job runs again, otherwise as it was *)
    w_jobs w' = put_job (u <| j_state := JRunning |> <| j_failed := None |>) (w_jobs (cw c)) /\
    (* one new task: the one at its position *)
    nth_error (j_tasks u) (Z.to_nat (j_position u - 1)) = Some def /\ 1 <= j_position u /\
    next_instance O u def (w_fresh (cw c)) (w_clock (cw c)) nx /\
    added (cw c) (w_tasks (cw c)) [nx] w' /\ published (cw c) w' [MTask QUEUE_PENDING nx].
Proof.
  intros O c fuel j u HR Hf Hin Hs Hu Hst Hpos Hctx. pose proof (reachable_inv _ _ HR) as HI. set (w := cw c) in *.
  destruct (inv_hist _ HI _ Hin) as ((u0 & Hu0 & Hd) & Hpr & [Hx|[Hx|[_ Hp]]]); try congruence. fold w in Hu0.
  assert (u0 = u) by congruence. subst u0. apply jdef_proj in Hd. pose proof (find_job_id _ _ _ Hu) as Hui.
  assert (Htasks : j_tasks u = j_tasks j) by tauto.
  set (u' := u <| j_state := JRunning |> <| j_failed := None |>).
  set (w1 := w <| w_jobs := put_job u' (w_jobs w) |>).
  assert (E1 : run (update_job (j_id j) (fun u => match j_state u with
      | JFailed | JCancelled => Ok (u <| j_state := JRunning |> <| j_failed := None |>, tt)
      | _ => Err "job can't be restarted" None end)) w = (w1, Ok tt)).
  { apply (run_update_job _ _ w u); [exact Hf|exact Hu|]. destruct Hst as [-> | ->]; reflexivity. }
  destruct (nth_task (j_tasks j) (j_position j - 1)) as [def|] eqn:En.
  2:{ unfold nth_task in En. destruct (j_position j - 1 <? 0) eqn:El; [apply Z.ltb_lt in El; lia|]. apply nth_error_None in En. lia. }
  assert (Hnth : nth_error (j_tasks u) (Z.to_nat (j_position u - 1)) = Some def).
  { rewrite Htasks, <- Hpos. unfold nth_task in En. destruct (j_position j - 1 <? 0); [discriminate|exact En]. }
  assert (Hdef : pristine def) by (rewrite Forall_forall in Hpr; apply Hpr; rewrite <- Htasks; eapply nth_error_In; exact Hnth).
  destruct (instantiate_spec O j def (j_position j) (w_fresh w) (w_clock w) Hdef) as (X1 & X2 & _).
  set (nx := instantiate O j def (j_position j) (w_fresh w) (w_clock w)) in *.
  eexists. exists def, nx. split.
  { rewrite deliver_job. unfold job_wrapper. rewrite run_catch. unfold job_handler at 1. rewrite Hs. unfold restart_job.
    rewrite run_bind, E1, run_bind, run_now, En, run_bind, run_new_id. change (w_fresh w1) with (w_fresh w). change (w_clock w1) with (w_clock w).
    fold nx. rewrite run_bind, (run_create_task nx _ u').
    - unfold publish_task. rewrite run_publish by exact Hf. reflexivity.
    - exact Hf.
    - rewrite X1. change (find_task (w_fresh w) w = None). apply fresh_not_found. now apply Inv_ids_below.
    - rewrite X2. change (find_job (j_id j) w1 = Some u').
      pose proof (put_job_effect w w1 u u') as Hpe. rewrite Hui in Hpe. exact (proj1 (Hpe Hu Hui eq_refl)). }
  split; [reflexivity|]. split; [exact Hnth|]. split; [lia|]. split; [|split; reflexivity].
  unfold next_instance. rewrite <- Hctx, <- Hpos.
  assert (Hpar : t_parent def = noid) by (apply pristine_eq in Hdef; tauto).
  rewrite Hui. unfold nx, instantiate, evaluate_task.
  replace (def <| t_id := w_fresh w |> <| t_job := j_id j |> <| t_state := TPending |> <| t_position := j_position j |> <| t_created := Some (w_clock w) |>)
    with (identity (w_fresh w) (j_id j) (t_parent def) TPending (j_position j) (Some (w_clock w)) def) by (destruct def; reflexivity).
  rewrite eval_identity. destruct (eval_task (o_tmpl O (j_context j) None) def); reflexivity.
Qed.
Print Assumptions C24_restart.

(** the request is only accepted for a finished job with tasks left, and then says what is stored *)
Theorem C24_restart_request : forall w i, w_faults w = [] ->
  (exists j, find_job i w = Some j /\ (j_state j = JFailed \/ j_state j = JCancelled) /\ j_position j <= Z.of_nat (length (j_tasks j)) /\
     exists w', run (api_restart i) w = (w', Ok tt) /\ w' = w <| w_hist := w_hist w ++ [MJob (j <| j_state := JRestart |>)] |>) \/
  (~ (exists j, find_job i w = Some j /\ (j_state j = JFailed \/ j_state j = JCancelled) /\ j_position j <= Z.of_nat (length (j_tasks j))) /\
   exists e, run (api_restart i) w = (w, Err e None)).
Proof.
  intros w i Hf. unfold api_restart. rewrite run_bind, run_get_job by exact Hf.
  destruct (find_job i w) as [j|] eqn:Ej.
  2:{ right. split; [intros (j & Hj & _); discriminate|eauto]. }
  destruct (Z.of_nat (length (j_tasks j)) <? j_position j) eqn:El; [apply Z.ltb_lt in El|apply Z.ltb_ge in El].
  - right. split; [intros (j' & Hj & _ & Hle); injection Hj as <-; lia|]. destruct (j_state j); eexists; reflexivity.
  - destruct (j_state j) eqn:Es; try (right; split; [intros (j' & Hj & [Hx|Hx] & _); injection Hj as <-; congruence|eexists; reflexivity]; fail);
      left; exists j; (split; [reflexivity|]); (split; [auto|]); (split; [exact El|]); eexists; unfold publish_job; rewrite run_publish by exact Hf; split; reflexivity.
Qed.
Print Assumptions C24_restart_request.

Definition fail_run : list cmd :=
  [CApi (OSubmit two_tasks); CRun 0 100; CDeliver 0; CRun 1 100; CComplete 1 "r"; CDeliver 2; CRun 2 100; CDeliver 3; CRun 3 100; CFail 4 "boom"; CDeliver 5; CRun 4 100].
Example C24_nonvacuous : exists c j u, reachable O0 c /\ w_faults (cw c) = [] /\ In (MJob j) (w_hist (cw c)) /\ j_state j = JRestart /\
  find_job (j_id j) (cw c) = Some u /\ j_state u = JFailed /\ j_position j = j_position u /\ j_position u = 2 /\ j_context j = j_context u.
Proof.
  exists (sim_c O0 start (fail_run ++ [CApi (ORestart 1%N); CRun 5 100])). do 2 eexists.
  split; [apply sim_c_reachable; [cmds|reflexivity]|]. split; [reflexivity|]. split; [vm_compute; do 7 right; left; reflexivity|].
  vm_compute. auto 10.
Qed.

(** Two restart requests in flight: the second one, handled when the job is running again, fails the job. *)
Definition only_restarts (l : label) : Prop :=
  match l with LDeliver (MJob r) => j_state r = JRestart | LDeliver _ => False | LApi _ => False | LEmit _ => False | _ => True end.
Definition only_restarts_b (l : label) : bool :=
  match l with LDeliver (MJob r) => match j_state r with JRestart => true | _ => false end | LDeliver _ => false | LApi _ => false | LEmit _ => false | _ => true end.
Lemma only_restarts_dec ls : forallb only_restarts_b ls = true -> forall l, In l ls -> only_restarts l.
Proof.
  intros H l Hin. rewrite forallb_forall in H. specialize (H l Hin). destruct l as [m| | | | |]; cbn in *; try discriminate; try exact I.
  destruct m; try discriminate. now destruct (j_state j).
Qed.
Theorem C24_double_restart_refuted : exists O c ls c' j j',
  reachable O c /\ exec O c ls c' /\ find_job 1%N (cw c) = Some j /\ j_state j = JRunning /\
  (forall l, In l ls -> only_restarts l) /\
  find_job 1%N (cw c') = Some j' /\ j_state j' = JFailed.
Proof.
  pose (l1 := fail_run ++ [CApi (ORestart 1%N); CRun 5 100; CApi (ORestart 1%N); CRun 6 100; CDeliver 7; CRun 7 100]).
  exists O0, (sim_c O0 start l1), (sim_l O0 (sim_c O0 start l1) [CDeliver 8; CRun 8 100]), (sim_c O0 (sim_c O0 start l1) [CDeliver 8; CRun 8 100]).
  do 2 eexists. split; [apply sim_c_reachable; [unfold l1; cmds|reflexivity]|]. split; [apply sim_c_exec; [cmds|reflexivity]|].
  split; [vm_compute; reflexivity|]. split; [reflexivity|]. split.
  { apply only_restarts_dec. vm_compute. reflexivity. }
  split; [vm_compute; reflexivity|]. vm_compute; reflexivity.
Qed.
Print Assumptions C24_double_restart_refuted.

(** ** C26 *)
(** the code that handles a message about task [t] (queues pending, completed, started, error; progress reports) *)
Definition handling (O : oracle) (fuel : nat) (m : msg) (t : task) : option (prog unit) :=
  match m with
  | MTask q x =>
      if negb (N.eqb (t_id x) (t_id t)) then None
      else if String.eqb q "pending" then Some (pending_handler O x)
      else if String.eqb q "completed" then Some (completed_handler O fuel x)
      else if String.eqb q "started" then Some (started_handler O x)
      else if String.eqb q "error" then Some (error_handler O x)
      else None
  | MProgress x => if N.eqb (t_id x) (t_id t) then Some (progress_handler x) else None
  | _ => None
  end.
Lemma handling_inv O fuel m t p : handling O fuel m t = Some p ->
  exists x h, t_id x = t_id t /\ p = h x /\ deliver O fuel m = task_wrapper O h x /\
    ((m = MTask QUEUE_PENDING x /\ h = pending_handler O) \/ (m = MTask QUEUE_COMPLETED x /\ h = completed_handler O fuel) \/
     (m = MTask QUEUE_STARTED x /\ h = started_handler O) \/ (m = MTask QUEUE_ERROR x /\ h = error_handler O) \/
     (m = MProgress x /\ h = progress_handler)).
Proof.
  destruct m as [q x|?|? ?|x|?]; cbn [handling]; try discriminate.
  - destruct (N.eqb (t_id x) (t_id t)) eqn:Ei; cbn [negb]; [|discriminate]. apply N.eqb_eq in Ei. intros H. exists x.
    destruct (String.eqb q "pending") eqn:E1; [apply String.eqb_eq in E1; subst q; exists (pending_handler O); injection H as <-; auto 10|].
    destruct (String.eqb q "completed") eqn:E2; [apply String.eqb_eq in E2; subst q; exists (completed_handler O fuel); injection H as <-; auto 10|].
    destruct (String.eqb q "started") eqn:E3; [apply String.eqb_eq in E3; subst q; exists (started_handler O); injection H as <-; auto 10|].
    destruct (String.eqb q "error") eqn:E4; [apply String.eqb_eq in E4; subst q; exists (error_handler O); injection H as <-; auto 10|]. discriminate.
  - destruct (N.eqb (t_id x) (t_id t)) eqn:Ei; [|discriminate]. apply N.eqb_eq in Ei. intros H. injection H as <-.
    exists x, progress_handler. auto 10.
Qed.

(** what an error of the handler leaves: the invariant, and a message task that is still the same stored task *)
Lemma handling_err O c fuel m t p w1 e mt : reachable O c -> In m (w_hist (cw c)) -> handling O fuel m t = Some p ->
  run p (cw c) = (w1, Err e mt) ->
  exists tf, t_id tf = t_id t /\ t_error tf = e /\ t_state tf = TFailed /\ task_known w1 tf /\ Inv w1 /\
    run (deliver O fuel m) (cw c) = run (error_handler O tf) w1.
Proof.
  intros HR Hin Hh Er. pose proof (reachable_inv _ _ HR) as HI.
  destruct (handling_inv _ _ _ _ _ Hh) as (x & h & Hx & -> & Hd & Hcases).
  pose proof (inv_hist _ HI _ Hin) as Hm.
  assert (Hkx : task_ok x /\ task_known (cw c) x) by (destruct Hcases as [[-> _]|[[-> _]|[[-> _]|[[-> _]|[-> _]]]]]; exact Hm).
  destruct Hkx as [Hok Hk].
  assert (HW : wp Inv rely (guarantee (OMsg m)) (cw c) (h x) (PF (OMsg m) fuel x)).
  { destruct Hcases as [[-> ->]|[[-> ->]|[[-> ->]|[[-> ->]|[-> ->]]]]].
    - eapply W_conseq; [apply W_pending; auto|intros; now apply PT_PF]. left. split; [eexists; reflexivity|reflexivity].
    - apply W_completed; auto. eexists; reflexivity.
    - eapply W_conseq; [apply W_started; auto|intros; now apply PT_PF]. eexists; reflexivity.
    - eapply W_conseq; [apply W_error; auto|intros; now apply PT_PF]. eexists; reflexivity.
    - eapply W_conseq; [apply W_progress; auto|intros; now apply PT_PF]. }
  destruct (run_wp _ _ _ rely_refl rely_trans _ _ _ _ _ HW HI Er) as (HI1 & HRel & HP). cbn in HP.
  set (tf := (match mt with Some t' => t' | None => x end) <| t_failed := Some (w_clock w1) |> <| t_state := TFailed |> <| t_error := e |>).
  exists tf. assert (Hkf : t_id (match mt with Some t' => t' | None => x end) = t_id x /\ task_known w1 (match mt with Some t' => t' | None => x end)).
  { destruct mt as [t'|]; [tauto|]. split; [reflexivity|]. eapply task_known_rely; eauto. }
  destruct Hkf as [K1 K2].
  split; [unfold tf; cbn; congruence|]. split; [reflexivity|]. split; [reflexivity|].
  split; [apply (task_known_fields _ (match mt with Some t' => t' | None => x end)); auto|]. split; [exact HI1|].
  rewrite Hd. unfold task_wrapper. rewrite run_catch, Er. rewrite run_bind, run_now. reflexivity.
Qed.

(** If handling a task message fails, the task is failed with that error by the failure path of C14: *)
Theorem C26_handler_error_retries : forall O c fuel m t p w1 e mt u j,
  reachable O c -> In m (w_hist (cw c)) -> handling O fuel m t = Some p ->
  run p (cw c) = (w1, Err e mt) -> w_faults w1 = [] ->
  find_task (t_id t) w1 = Some u -> find_job (t_job u) w1 = Some j ->
  exists tf, t_id tf = t_id t /\ t_job tf = t_job u /\ t_error tf = e /\
  (* with attempts left *)
  (forall r rt, live (j_state j) -> t_retry tf = Some r -> r_attempts r < r_limit r ->
     eval_task (o_tmpl O (j_context j) None) (retry_attempt tf (w_fresh w1) (w_clock w1) r) = inl rt ->
     exists w', run (deliver O fuel m) (cw c) = (w', Ok tt) /\
       w_tasks w' = put_task (failed_row (w_clock w1) tf u) (w_tasks w1) ++ [db_task rt] /\ w_jobs w' = w_jobs w1 /\
       published w1 w' [MTask QUEUE_PENDING rt]) /\
  (* without *)
  (~ (live (j_state j) /\ may_retry tf) -> j_parent j = noid -> reachable_workers w1 (t_job u) ->
     exists w' j' ms, run (deliver O fuel m) (cw c) = (w', Ok tt) /\
       let T := put_task (failed_row (w_clock w1) tf u) (w_tasks w1) in
       w_tasks w' = cancel_active (t_job u) T /\ notices w' (active_tasks (t_job u) T) ms /\
       (live (j_state j) -> j' = j <| j_state := JFailed |> <| j_failed := Some (w_clock w1) |>) /\ (~ live (j_state j) -> j' = j) /\
       w_jobs w' = put_job j' (w_jobs w1) /\
       published w1 w' (ms ++ if jstate_eqb (j_state j') JFailed then [MEvent "job.failed" j'] else [])).
Proof.
  intros O c fuel m t p w1 e mt u j HR Hin Hh Er Hf Hu Hj.
  destruct (handling_err _ _ _ _ _ _ _ _ _ HR Hin Hh Er) as (tf & Hid & He & Hst & Hk & HI1 & Hd).
  destruct Hk as (u0 & Hu0 & Hab). rewrite Hid in Hu0. assert (u0 = u) by congruence. subst u0.
  assert (Hjb : t_job tf = t_job u) by (destruct Hab as (_ & ? & _); congruence).
  exists tf. split; [exact Hid|]. split; [exact Hjb|]. split; [exact He|]. rewrite Hd. split.
  - intros r rt Hl Hr Ha Hev. apply (error_run_retry O w1 tf u j r rt); auto; [now rewrite Hid|now rewrite Hjb].
  - intros Hl Hp Hw. rewrite <- Hjb in *. apply (error_run_fail O w1 tf u j); auto. now rewrite Hid.
Qed.
Print Assumptions C26_handler_error_retries.

(** an error while handling a job message fails the job *)
Theorem C26_job_error_fails_job : forall O c fuel j w1 e mt u,
  reachable O c -> In (MJob j) (w_hist (cw c)) -> run (job_handler O j) (cw c) = (w1, Err e mt) -> w_faults w1 = [] ->
  find_job (j_id j) w1 = Some u -> j_parent j = noid -> reachable_workers w1 (j_id j) ->
  exists w' ms, run (deliver O fuel (MJob j)) (cw c) = (w', Ok tt) /\
    let u' := failed_job (Some (w_clock w1)) u in
    w_jobs w' = put_job u' (w_jobs w1) /\ w_tasks w' = cancel_active (j_id j) (w_tasks w1) /\
    notices w' (active_tasks (j_id j) (w_tasks w1)) ms /\
    published w1 w' (ms ++ if jstate_eqb (j_state u') JFailed then [MEvent "job.failed" u'] else []).
Proof.
  intros O c fuel j w1 e mt u HR Hin Er Hf Hu Hp Hw. pose proof (reachable_inv _ _ HR) as HI.
  pose proof (inv_hist _ HI _ Hin) as (Hk & Hpr & Hst).
  assert (HW : wp Inv rely (guarantee (OMsg (MJob j))) (cw c) (job_handler O j) (PJ (OMsg (MJob j)))).
  { unfold job_handler. destruct Hst as [Es|[Es|[Es Hpos]]]; rewrite Es.
    - now apply W_start_job.
    - eapply W_conseq; [now apply W_cancel_handler|]. intros; now apply PN_PJ.
    - eapply W_conseq; [now apply W_restart_job|]. intros; now apply PN_PJ. }
  destruct (run_wp _ _ _ rely_refl rely_trans _ _ _ _ _ HW HI Er) as (HI1 & _ & _).
  rewrite deliver_job. unfold job_wrapper. rewrite run_catch, Er. rewrite run_bind, run_now.
  set (jf := j <| j_failed := Some (w_clock w1) |> <| j_state := JFailed |>).
  change (job_handler O jf) with (fail_job jf).
  destruct (fail_job_run w1 jf u (inv_task_ids _ HI1) Hf Hu Hp Hw) as (w' & ms & H1 & H2 & H3 & H4 & H5).
  exists w', ms. split; [exact H1|]. cbn zeta. split; [exact H4|]. split; [exact H2|]. split; [exact H3|exact H5].
Qed.
Print Assumptions C26_job_error_fails_job.

Lemma handling_completed O fuel x : handling O fuel (MTask QUEUE_COMPLETED x) x = Some (completed_handler O fuel x).
Proof. cbn. now rewrite N.eqb_refl. Qed.
(** a completion report for a task that is not running: the handler errs, the job fails *)
Example C26_nonvacuous : exists c m t p w1 e mt u j,
  reachable O0 c /\ In m (w_hist (cw c)) /\ handling O0 10 m t = Some p /\ run p (cw c) = (w1, Err e mt) /\ w_faults w1 = [] /\
  find_task (t_id t) w1 = Some u /\ find_job (t_job u) w1 = Some j /\ live (j_state j) /\ j_parent j = noid /\ reachable_workers w1 (t_job u).
Proof.
  (* the completion of the first task arrives a second time *)
  exists (sim_c O0 start [CApi (OSubmit two_tasks); CRun 0 100; CDeliver 0; CRun 1 100; CComplete 1 "r"; CDeliver 2; CRun 2 100]).
  do 8 eexists. split; [apply sim_c_reachable; [cmds|reflexivity]|]. split; [vm_compute; right; right; left; reflexivity|].
  split; [apply handling_completed|]. split; [vm_compute; reflexivity|]. split; [reflexivity|]. split; [vm_compute; reflexivity|]. split; [vm_compute; reflexivity|].
  split; [vm_compute; first [now left | now right | auto]|]. split; [reflexivity|]. apply workers_told; vm_compute; reflexivity.
Qed.
(** a restart request for a running job *)
Example C26_job_nonvacuous : exists c j w1 e mt u,
  reachable O0 c /\ In (MJob j) (w_hist (cw c)) /\ run (job_handler O0 j) (cw c) = (w1, Err e mt) /\ w_faults w1 = [] /\
  find_job (j_id j) w1 = Some u /\ j_parent j = noid /\ reachable_workers w1 (j_id j) /\ live (j_state u).
Proof.
  exists (sim_c O0 start (fail_run ++ [CApi (ORestart 1%N); CRun 5 100; CApi (ORestart 1%N); CRun 6 100; CDeliver 7; CRun 7 100])).
  do 5 eexists. split; [apply sim_c_reachable; [cmds|reflexivity]|]. split; [vm_compute; do 8 right; left; reflexivity|].
  split; [vm_compute; reflexivity|]. split; [reflexivity|]. split; [vm_compute; reflexivity|]. split; [reflexivity|].
  split; [|now right]. apply workers_told; vm_compute; reflexivity.
Qed.

(** ** C27 *)
(** the row of a task of job [j] whose expressions failed with [e] *)
Definition unevaluable (j : job) (def : task) (i : id) (clk : time) (e : string) : task :=
  (identity i (j_id j) (t_parent def) TFailed 1 (Some clk) def) <| t_error := e |> <| t_failed := Some clk |>.


Theorem C27_first_task : forall O c fuel j u def rest e,
  reachable O c -> w_faults (cw c) = [] -> In (MJob j) (w_hist (cw c)) -> j_state j = JPending -> j_parent j = noid ->
  find_job (j_id j) (cw c) = Some u -> j_tasks j = def :: rest -> eval_task (o_tmpl O (j_context j) None) def = inr e ->
  reachable_workers (cw c) (j_id j) ->
  exists w' ms, run (deliver O fuel (MJob j)) (cw c) = (w', Ok tt) /\
    let ft := unevaluable j def (w_fresh (cw c)) (w_clock (cw c)) e in
    let u' := u <| j_state := JFailed |> <| j_started := Some (w_clock (cw c)) |> <| j_position := 1 |> <| j_failed := Some (w_clock (cw c)) |> in
    w_tasks w' = cancel_active (j_id j) (w_tasks (cw c) ++ [db_task ft]) /\ find_task (t_id ft) w' = Some (db_task ft) /\
    w_jobs w' = put_job u' (w_jobs (cw c)) /\
    notices w' (active_tasks (j_id j) (w_tasks (cw c))) ms /\ published (cw c) w' (ms ++ [MEvent "job.failed" u']).
Proof.
  intros O c fuel j u def rest e HR Hf Hin Hst Hp Hu Hts Hev Hw. pose proof (reachable_inv _ _ HR) as HI. set (w := cw c) in *.
  pose proof (find_job_id _ _ _ Hu) as Hui.
  set (clk := w_clock w). set (i := w_fresh w). set (ft := unevaluable j def i clk e).
  assert (Hin1 : instantiate O j def 1 i clk = ft).
  { unfold instantiate, evaluate_task.
    replace (def <| t_id := i |> <| t_job := j_id j |> <| t_state := TPending |> <| t_position := 1 |> <| t_created := Some clk |>)
      with (identity i (j_id j) (t_parent def) TPending 1 (Some clk) def) by (destruct def; reflexivity).
    rewrite eval_identity, Hev. unfold ft, unevaluable. reflexivity. }
  set (u1 := u <| j_state := JScheduled |> <| j_started := Some clk |> <| j_position := 1 |>).
  set (w1 := w <| w_fresh := N.succ i |> <| w_tasks := w_tasks w ++ [db_task ft] |> <| w_jobs := put_job u1 (w_jobs w) |>).
  set (jf := j <| j_failed := Some clk |> <| j_state := JFailed |> <| j_error := e |>).
  assert (Hnf : find_task i w = None) by (apply fresh_not_found; now apply Inv_ids_below).
  assert (Erun : run (deliver O fuel (MJob j)) w = match run (fail_job jf) w1 with (w', Err e' m) => run (let* n := now in job_handler O (j <| j_failed := Some n |> <| j_state := JFailed |>)) w' | x => x end).
  { rewrite deliver_job. unfold job_wrapper. rewrite run_catch. unfold job_handler at 1. rewrite Hst. unfold start_job. rewrite Hts.
    rewrite run_bind, run_now, run_bind, run_new_id. fold i clk. rewrite Hin1.
    rewrite run_bind, (run_create_task ft _ u); [|exact Hf|exact Hnf|exact Hu].
    rewrite run_bind, run_now, run_bind.
    erewrite run_update_job; [|exact Hf|exact Hu|reflexivity].
    cbn -[fail_job job_handler run deliver bind]. fold clk. fold u1.
    change (t_error ft) with e. rewrite run_bind, run_now. 
    match goal with |- context [run (fail_job ?a) ?b] => change a with jf; change b with w1 end. destruct (run (fail_job jf) w1) as [w' []]; reflexivity. }
  assert (Hnd : NoDup (map t_id (w_tasks w1))).
  { cbn. rewrite map_app. apply NoDup_snoc; [apply (inv_task_ids _ HI)|]. intros Hc. apply in_map_iff in Hc as (y & Hy & Hyin).
    apply (inv_task_fresh _ HI) in Hyin. cbn in Hy. unfold i in Hy. lia. }
  assert (Hact : active_tasks (j_id j) (w_tasks w1) = active_tasks (j_id j) (w_tasks w)).
  { unfold active_tasks. cbn -[db_task]. rewrite filter_app. cbn. rewrite andb_false_r. apply app_nil_r. }
  destruct (fail_job_run w1 jf u1 Hnd Hf) as (w' & ms & H1 & H2 & H3 & H4 & H5).
  { pose proof (put_job_effect w w1 u u1) as Hpe. rewrite Hui in Hpe. exact (proj1 (Hpe Hu Hui eq_refl)). }
  { exact Hp. }
  { intros x Hx. change (j_id jf) with (j_id j) in Hx. rewrite Hact in Hx. destruct (Hw x Hx) as (ms & Hms).
    eapply notice_transfer; [| |exact Hms]; [reflexivity|]. intros k y Hy. exact (find_put_job_some w w1 u1 k y eq_refl Hy). }
  change (j_id jf) with (j_id j) in *. exists w', ms. rewrite Erun, H1. split; [reflexivity|]. cbn zeta.
  assert (Hu' : put_job (failed_job (j_failed jf) u1) (w_jobs w1) = put_job (u <| j_state := JFailed |> <| j_started := Some clk |> <| j_position := 1 |> <| j_failed := Some clk |>) (w_jobs w)).
  { change (w_jobs w1) with (put_job u1 (w_jobs w)). rewrite put_job_put by reflexivity. reflexivity. }
  split; [exact H2|]. split.
  { assert (Hfin : forall l, cancel_active (j_id j) (l ++ [db_task ft]) = cancel_active (j_id j) l ++ [db_task ft]).
    { intros l. unfold cancel_active. rewrite map_app. cbn. rewrite andb_false_r. reflexivity. }
    unfold find_task. rewrite H2. change (w_tasks w1) with (w_tasks w ++ [db_task ft]). rewrite Hfin.
    assert (Hno : find (fun t => N.eqb (t_id t) (t_id ft)) (cancel_active (j_id j) (w_tasks w)) = None).
    { assert (Hids : map t_id (cancel_active (j_id j) (w_tasks w)) = map t_id (w_tasks w)).
      { unfold cancel_active. rewrite map_map. apply map_ext. intros x. destruct (_ && _)%bool; reflexivity. }
      destruct (find _ _) as [y|] eqn:Ey; [|reflexivity]. apply find_some in Ey as [Hy1 Hy2]. apply N.eqb_eq in Hy2.
      apply (in_map t_id) in Hy1. rewrite Hids in Hy1. apply in_map_iff in Hy1 as (z & Hz & Hzin). apply (inv_task_fresh _ HI) in Hzin.
      change (t_id ft) with i in Hy2. unfold i in Hy2. fold w in Hzin. lia. }
    revert Hno. generalize (cancel_active (j_id j) (w_tasks w)). intros l. induction l as [|y l IH]; [intros _; cbn; now rewrite N.eqb_refl|].
    cbn -[db_task]. destruct (N.eqb (t_id y) i); [discriminate|]. exact IH. }
  split; [rewrite <- Hu'; exact H4|]. split; [rewrite <- Hact; exact H3|]. exact H5.
Qed.
Print Assumptions C27_first_task.

(** An oracle on which the expression "bad" fails. *)
Definition O1 : oracle := mkOracle unit (fun _ _ s => if String.eqb s "bad" then inr "no such variable" else inl s) (fun _ _ => inl (Some [tt; tt; tt])) (fun _ => Some 5).
Definition bad : task := simple "b" <| t_image := "bad" |>.
Example C27_nonvacuous : exists c j u def rest e, reachable O1 c /\ w_faults (cw c) = [] /\ In (MJob j) (w_hist (cw c)) /\ j_state j = JPending /\ j_parent j = noid /\
  find_job (j_id j) (cw c) = Some u /\ j_tasks j = def :: rest /\ eval_task (o_tmpl O1 (j_context j) None) def = inr e /\ reachable_workers (cw c) (j_id j).
Proof.
  exists (sim_c O1 start [CApi (OSubmit (demo_job [bad])); CRun 0 100]). do 5 eexists.
  split; [apply sim_c_reachable; [cmds|reflexivity]|]. split; [reflexivity|]. split; [vm_compute; left; reflexivity|]. do 5 (split; [vm_compute; reflexivity|]).
  apply workers_told; vm_compute; reflexivity.
Qed.

(** For a later task the property is false: the FAILED task is queued, scheduled and sent to a worker. *)
Theorem C27_later_tasks_refuted : exists c t, reachable O1 c /\ In (MTask "default" t) (w_hist (cw c)) /\ t_image t = "bad" /\
  t_error t = "no such variable" /\ exists u j, find_task (t_id t) (cw c) = Some u /\ t_state u = TScheduled /\ find_job (t_job t) (cw c) = Some j /\ j_state j = JScheduled.
Proof.
  exists (sim_c O1 start [CApi (OSubmit (demo_job [simple "a"; bad])); CRun 0 100; CDeliver 0; CRun 1 100; CComplete 1 "r"; CDeliver 2; CRun 2 100; CDeliver 3; CRun 3 100]).
  eexists. split; [apply sim_c_reachable; [cmds|reflexivity]|]. split; [vm_compute; do 4 right; left; reflexivity|].
  split; [reflexivity|]. split; [reflexivity|]. do 2 eexists. vm_compute. auto.
Qed.
Print Assumptions C27_later_tasks_refuted.

(** ** C14: retries evaluate the already evaluated task again *)
(** the expression "A" has the value "B", which happens to be an expression of value "C" *)
Definition O2 : oracle := mkOracle unit (fun _ _ s => inl (if String.eqb s "A" then "B" else if String.eqb s "B" then "C" else s)) (fun _ _ => inl (Some [])) (fun _ => None).
Definition templated : task := simple "a" <| t_image := "A" |> <| t_retry := Some (mkRetry 1 0) |>.
Theorem C14_retry_reevaluates_refuted : exists c t1 t2, reachable O2 c /\
  In (MTask "default" t1) (w_hist (cw c)) /\ In (MTask "pending" t2) (w_hist (cw c)) /\ t_image t1 = "B" /\ t_image t2 = "C" /\
  attempts_of (t_retry t1) = 0 /\ attempts_of (t_retry t2) = 1 /\ t_name t1 = t_name t2 /\ t_position t1 = t_position t2.
Proof.
  exists (sim_c O2 start [CApi (OSubmit (demo_job [templated])); CRun 0 100; CDeliver 0; CRun 1 100; CFail 1 "boom"; CDeliver 2; CRun 2 100]).
  do 2 eexists. split; [apply sim_c_reachable; [cmds|reflexivity]|]. split; [vm_compute; right; left; reflexivity|].
  split; [vm_compute; do 3 right; left; reflexivity|]. vm_compute. auto 10.
Qed.
Print Assumptions C14_retry_reevaluates_refuted.
(** and when that second evaluation fails, the failure is lost: the task is FAILED, the job runs forever with nothing to do *)
Definition O3 : oracle := mkOracle unit (fun _ _ s => if String.eqb s "A" then inl "B" else if String.eqb s "B" then inr "syntax error" else inl s) (fun _ _ => inl (Some [])) (fun _ => None).
Theorem C14_retry_evaluation_failure_refuted : exists c m w' e mt, reachable O3 c /\ In m (w_hist (cw c)) /\ w_faults (cw c) = [] /\
  run (deliver O3 10 m) (cw c) = (w', Err e mt) /\ published (cw c) w' [] /\
  (forall t, In t (w_tasks w') -> t_state t = TFailed) /\ w_tasks w' <> [] /\
  exists j, w_jobs w' = [j] /\ live (j_state j).
Proof.
  exists (sim_c O3 start [CApi (OSubmit (demo_job [templated])); CRun 0 100; CDeliver 0; CRun 1 100; CFail 1 "boom"]).
  do 4 eexists. split; [apply sim_c_reachable; [cmds|reflexivity]|]. split; [vm_compute; right; right; left; reflexivity|].
  split; [reflexivity|]. split; [vm_compute; reflexivity|]. split; [vm_compute; reflexivity|].
  split; [intros t [<-|[]]; reflexivity|]. split; [discriminate|]. eexists. split; [reflexivity|]. now left.
Qed.
Print Assumptions C14_retry_evaluation_failure_refuted.

(** ** C15: a failing sub-job leaves its other tasks running *)
Definition sub_par : task := blank_task <| t_name := "sub" |> <| t_subjob := Some (mkSubJob noid "s" "" [blank_task <| t_name := "par" |> <| t_parallel := Some (mkParallel [simple "x"; simple "y"] 0) |>] [] [] None "" false []) |>.
Theorem C15_subjob_refuted : exists c m w', reachable O0 c /\ In m (w_hist (cw c)) /\ w_faults (cw c) = [] /\
  run (deliver O0 10 m) (cw c) = (w', Ok tt) /\
  exists j t, In j (w_jobs w') /\ j_state j = JFailed /\ j_parent j <> noid /\ In t (w_tasks w') /\ t_job t = j_id j /\ t_state t = TScheduled /\
    In (MTask "default" t) (w_hist w').
Proof.
  exists (sim_c O0 start [CApi (OSubmit (demo_job [sub_par])); CRun 0 100; CDeliver 0; CRun 1 100; CDeliver 1; CRun 2 100; CDeliver 2; CRun 3 100; CDeliver 3; CRun 4 100; CFail 4 "boom"]).
  do 2 eexists. split; [apply sim_c_reachable; [cmds|reflexivity]|]. split; [vm_compute; do 6 right; left; reflexivity|].
  split; [reflexivity|]. split; [vm_compute; reflexivity|].
  do 2 eexists. split; [vm_compute; right; left; reflexivity|]. split; [reflexivity|]. split; [discriminate|].
  split; [vm_compute; do 3 right; left; reflexivity|]. split; [reflexivity|]. split; [reflexivity|]. vm_compute; do 5 right; left; reflexivity.
Qed.
Print Assumptions C15_subjob_refuted.
