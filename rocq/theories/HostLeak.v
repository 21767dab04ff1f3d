(** C93: where the variables of a worker's host go.  middleware/task/hostenv.go:12-52 inside internal/worker/worker.go:103-205,
    the coordinator's internal/coordinator/handlers/started.go:30-77, redelivered.go:29-45 and error.go, and the broker's
    redelivery (broker/rabbitmq.go:345-367).  The pieces are those of HostEnv.v (C55), Worker.v (C52), Handlers.v and
    System.v; here they are put together. *)
From Coq Require Import Permutation.
From Verif Require Import Types Clone Middleware World Handlers System Worker SeqLogic Sim.
From Verif Require HostEnv.
Open Scope string_scope.
Open Scope list_scope.
Open Scope Z_scope.

(* ------------------------------------------------------------------ *)
(** * Model *)
(** hostenv.go:31-38 as a middleware of the worker: the event is always a state change there (worker.go:127), the
    next handler is called with the changed task and its error is returned.  [order_of]: the order in which the map of
    variables is walked for a task. *)
Definition host_gate (host : string -> string) (order_of : task -> list (string * string)) : gate :=
  mkGate (fun t => inl (HostEnv.execute host order_of true t)) (fun t => (t, None)).

(** one execution by a worker whose only middleware is that one (engine/worker.go:47-60): what it publishes
    ([broker_err]: whether publishing on a queue fails) *)
Definition host_worker (node : id) (wl : wlimits) (parse_ok : string -> option string) (broker_err : string -> option string)
    (st rt ft : time) (host : string -> string) (order_of : task -> list (string * string))
    (runtime : task -> task * option string) (t : task) : list pub :=
  fst (do_handle_task node wl runtime parse_ok (fun q _ => broker_err q) st rt ft (map gate_mw [host_gate host order_of]) t).

(* ------------------------------------------------------------------ *)
(** * Specification *)
(** the same task but for environments (its own and those of its pre and post tasks, which only these three fields hold) *)
Definition same_but_env (a b : task) : Prop :=
  b = a <| t_env := t_env b |> <| t_pre := t_pre b |> <| t_post := t_post b |>.
(** the values of the variables do not show in what the container writes nor in how it ends *)
Definition discreet (runtime : task -> task * option string) : Prop :=
  forall a b, same_but_env a b -> snd (runtime a) = snd (runtime b) /\ t_result (fst (runtime a)) = t_result (fst (runtime b)).
(** the tables of the database *)
Definition stored (w : world) := (w_jobs w, w_tasks w, w_nodes w).

(* ------------------------------------------------------------------ *)
(** * Proofs *)
Lemma host_gate_good host o : good_gate (host_gate host o).
Proof. intros t. reflexivity. Qed.
Lemma execute_same host o sc t : same_but_env t (HostEnv.execute host o sc t).
Proof. unfold HostEnv.execute, same_but_env. destruct (_ && _); destruct t; reflexivity. Qed.
Definition with_env (a : task) e p q : task := a <| t_env := e |> <| t_pre := p |> <| t_post := q |>.
Lemma same_with a e p q : same_but_env a (with_env a e p q).
Proof. unfold same_but_env, with_env. destruct a. reflexivity. Qed.
Lemma same_sym a b : same_but_env a b -> same_but_env b a.
Proof.
  intros H. assert (E : a = with_env b (t_env a) (t_pre a) (t_post a)); [|exact E].
  rewrite H. generalize (t_env b) (t_pre b) (t_post b). intros e p q. unfold with_env. destruct a. reflexivity.
Qed.
Lemma same_trans a b c : same_but_env a b -> same_but_env b c -> same_but_env a c.
Proof.
  intros H1 H2. unfold same_but_env in H2. rewrite H2, H1. generalize (t_env b) (t_pre b) (t_post b) (t_env c) (t_pre c) (t_post c). intros.
  unfold same_but_env. destruct a. reflexivity.
Qed.

(** Whatever a chain of middlewares does to the task it hands on, the report on the outcome carries the environment,
    the pre tasks and the post tasks exactly as the worker received them. *)
Theorem C93_outcomes_carry_what_was_received : forall node wl runtime parse_ok publish_err st rt ft mws t,
  let (inner, _) := fst (apply_middleware (run_task runtime parse_ok publish_err rt) mws (clone_task (prepare node wl st t))) in
  let ps := fst (do_handle_task node wl runtime parse_ok publish_err st rt ft mws t) in
  exists own, ps = inner ++ own /\ (length own <= 1)%nat /\
  forall p, In p own -> t_env (pub_task p) = t_env t /\ t_pre (pub_task p) = t_pre t /\ t_post (pub_task p) = t_post t.
Proof.
  intros. pose proof (C52_outcome_content node wl runtime parse_ok publish_err st rt ft mws t) as H.
  destruct (do_handle_task node wl runtime parse_ok publish_err st rt ft mws t) as [ps err].
  destruct (apply_middleware (run_task runtime parse_ok publish_err rt) mws (clone_task (prepare node wl st t))) as [[inner rt'] e]. cbn [fst snd].
  destruct H as [(p & -> & _ & Ho & _)|(-> & _)].
  - exists [p]. split; [reflexivity|]. split; [cbn; lia|]. intros q [<-|[]]. unfold outcome_of in Ho. tauto.
  - exists []. split; [now rewrite app_nil_r|]. split; [cbn; lia|]. intros q [].
Qed.
Print Assumptions C93_outcomes_carry_what_was_received.

Lemma host_run node wl po be st rt ft host o runtime t :
  let t1 := HostEnv.execute host o true (clone_task (prepare node wl st t)) in
  let t0 := prepare node wl st t in
  host_worker node wl po be st rt ft host o runtime t =
  mkPub QUEUE_STARTED t1 (be QUEUE_STARTED) ::
  match be QUEUE_STARTED with
  | Some e => [mkPub QUEUE_ERROR (t0 <| t_error := e |> <| t_failed := Some ft |> <| t_state := TFailed |>) (be QUEUE_ERROR)]
  | None =>
    let r := do_run_task runtime po rt t1 in
    match snd r, t_state (fst r) with
    | Some e, _ => [mkPub QUEUE_ERROR (t0 <| t_error := e |> <| t_failed := Some ft |> <| t_state := TFailed |>) (be QUEUE_ERROR)]
    | None, TCompleted => [mkPub QUEUE_COMPLETED (t0 <| t_result := t_result (fst r) |> <| t_completed := t_completed (fst r) |> <| t_state := t_state (fst r) |>) (be QUEUE_COMPLETED)]
    | None, TFailed => [mkPub QUEUE_ERROR (t0 <| t_error := t_error (fst r) |> <| t_failed := t_failed (fst r) |> <| t_state := t_state (fst r) |>) (be QUEUE_ERROR)]
    | None, _ => []
    end
  end.
Proof.
  cbv zeta. unfold host_worker, do_handle_task.
  rewrite chain by (constructor; [apply host_gate_good|constructor]).
  set (t0 := prepare node wl st t). clearbody t0.
  change (pre_all [host_gate host o] (clone_task t0)) with (@inl task string (HostEnv.execute host o true (clone_task t0))).
  cbn beta iota. set (t1 := HostEnv.execute host o true (clone_task t0)). clearbody t1.
  set (x := snd (fst _)). clearbody x.
  unfold run_task at 1. cbn [publish pub_err].
  unfold publish. destruct (be QUEUE_STARTED) as [e|]; [reflexivity|].
  destruct (do_run_task runtime po rt t1) as [t2 [e|]]; [reflexivity|].
  cbn [post_all host_gate g_post fst snd]. destruct (t_state t2); reflexivity.
Qed.

Definition outcomes (ps : list pub) : list pub := filter is_outcome ps.

(** Two hosts, two orders: if the values do not show in what the container writes or in how it ends, the outcome
    reported is the same message, in every field. *)
Theorem C93_outcome_independent : forall node wl po be st rt ft h1 h2 o1 o2 runtime t,
  discreet runtime ->
  outcomes (host_worker node wl po be st rt ft h1 o1 runtime t) = outcomes (host_worker node wl po be st rt ft h2 o2 runtime t).
Proof.
  intros node wl po be st rt ft h1 h2 o1 o2 runtime t Hd.
  rewrite !host_run. set (t0 := prepare node wl st t). clearbody t0.
  set (a := HostEnv.execute h1 o1 true (clone_task t0)). set (b := HostEnv.execute h2 o2 true (clone_task t0)).
  assert (Hab : same_but_env a b) by (eapply same_trans; [apply same_sym, execute_same|apply execute_same]).
  clearbody a b. unfold outcomes. cbn [filter is_outcome pub_queue]. change (is_outcome (mkPub QUEUE_STARTED a (be QUEUE_STARTED))) with false.
  change (is_outcome (mkPub QUEUE_STARTED b (be QUEUE_STARTED))) with false. cbv iota.
  destruct (be QUEUE_STARTED) as [e|]; [reflexivity|].
  assert (Ht : t_timeout b = t_timeout a) by (rewrite Hab; destruct a; reflexivity).
  unfold do_run_task. rewrite Ht.
  destruct (if Worker.is_empty (t_timeout a) then None else po (t_timeout a)) as [e|].
  - cbn [fst snd]. reflexivity.
  - destruct (Hd _ _ Hab) as [E1 E2]. destruct (runtime a) as [a' ea], (runtime b) as [b' eb]. cbn [fst snd] in E1, E2. subst eb.
    destruct ea as [e|]; cbn [fst snd].
    + destruct a', b'. cbn. reflexivity.
    + destruct a', b'. cbn in E2. subst. cbn. reflexivity.
Qed.
Print Assumptions C93_outcome_independent.

(** The start report is another matter: it is the copy prepared for the container, host values included. *)
Theorem C93_started_carries_the_values : forall node wl po be st rt ft host vars order_of runtime t,
  (forall u, Permutation vars (order_of u)) ->
  exists s rest, host_worker node wl po be st rt ft host order_of runtime t = s :: rest /\ pub_queue s = QUEUE_STARTED /\
    HostEnv.exposes_task host vars (clone_task (prepare node wl st t)) (pub_task s) /\
    forall name alias, In (name, alias) vars -> NoDup (map snd vars) -> HostEnv.mget (t_env (pub_task s)) alias = Some (host name).
Proof.
  intros node wl po be st rt ft host vars o runtime t Hp. rewrite host_run. cbv zeta.
  eexists _, _. split; [reflexivity|]. split; [reflexivity|]. cbn [pub_task].
  assert (E : HostEnv.execute host o true (clone_task (prepare node wl st t)) = HostEnv.set_host_vars host o (clone_task (prepare node wl st t))).
  { unfold HostEnv.execute. replace (t_state (clone_task (prepare node wl st t))) with TRunning; [reflexivity|].
    pose proof (prepare_state node wl st t) as E. destruct (prepare node wl st t). cbn in *. congruence. }
  rewrite E. pose proof (HostEnv.C55_exactly_the_configured host vars o (clone_task (prepare node wl st t)) Hp) as He.
  split; [exact He|]. intros name alias Hin Hnd. destruct He as [a b Hex _ _ _]. destruct (Hex alias) as [_ H2].
  destruct H2 as (n & Hn & ->); [apply in_map_iff; exists (name, alias); auto|]. f_equal. f_equal.
  assert (H : (n, alias) = (name, alias)); [|congruence]. eapply map_nodup_inj; [exact Hnd|assumption|assumption|reflexivity].
Qed.
Print Assumptions C93_started_carries_the_values.

(** The coordinator keeps none of it when it handles the report: what it stores, and whether it succeeds, depend on
    which task, which job and which node are meant, not on the environment; database failures included. *)
Theorem C93_started_stores_nothing : forall O t t' w,
  same_but_env t t' ->
  stored (fst (run (started_handler O t) w)) = stored (fst (run (started_handler O t') w)) /\
  (snd (run (started_handler O t) w) = Ok tt <-> snd (run (started_handler O t') w) = Ok tt).
Proof.
  intros O t t' w H.
  assert (E1 : t_id t' = t_id t) by (rewrite H; destruct t; reflexivity).
  assert (E2 : t_job t' = t_job t) by (rewrite H; destruct t; reflexivity).
  assert (E3 : t_node t' = t_node t) by (rewrite H; destruct t; reflexivity).
  unfold started_handler. rewrite E1, E2, E3, !run_bind.
  destruct (run (get_job (t_job t)) w) as [w1 [j|e m| |]]; try (split; [reflexivity|tauto]).
  destruct (negb (job_live (j_state j))).
  - rewrite !run_with_msg, !run_bind.
    change (t_node (t <| t_state := TCancelled |>)) with (t_node t).
    change (t_node (t' <| t_state := TCancelled |>)) with (t_node t'). rewrite E3.
    destruct (run (get_node (t_node t)) w1) as [w2 [n|e m| |]]; try (split; [reflexivity|split; discriminate]).
    unfold publish_task. rewrite !run_op. unfold a_publish, faulty.
    destruct (w_faults w2) as [|[] fs]; (split; [reflexivity|split; intros; try discriminate; reflexivity]).
  - split; [reflexivity|tauto].
Qed.
Print Assumptions C93_started_stores_nothing.

Lemma host_gate_id host o : id_gate (host_gate host o).
Proof.
  split; [apply host_gate_good|]. intros t t1 E.
  assert (H : same_but_env t t1). { change (@inl task string (HostEnv.execute host o true t) = inl t1) in E. injection E as <-. apply execute_same. }
  clear E. unfold same_but_env in H. rewrite H. generalize (t_env t1) (t_pre t1) (t_post t1). intros.
  split; [|destruct t; reflexivity]. unfold worker_report. do 11 (split; [destruct t; reflexivity|]). left. destruct t; reflexivity.
Qed.

(** But it can come back.  The broker turns a message it has to deliver a second time into a message of the redeliveries
    queue, whatever queue it was on (broker/rabbitmq.go:345-367); the handler of that queue publishes the task on the
    queue it runs on (handlers/redelivered.go:40-44): a start report that is redelivered (its coordinator died, say) has
    the task executed again, with the host's value now part of the task received.  If that execution fails and the task
    is to be retried, the retry is stored with the value in its environment. *)
Definition leak_host : string -> string := fun n => if String.eqb n "TOKEN" then "s3cret" else "".
Definition leak_order : task -> list (string * string) := fun _ => [("TOKEN", "TOKEN")].
Definition leak_runtime : task -> task * option string := fun t => (t, Some "exit code 1").
Notation leak_worker :=
  (host_worker 9%N (mkWLimits "" "" "") (fun _ => None) (fun _ => None) 10 20 30 leak_host leak_order leak_runtime).
(** a message that a worker of that host publishes about a task on its queues, or a redelivery *)
Definition leak_message (h : list msg) (m : msg) : Prop :=
  (exists q t p, In (MTask q t) h /\ is_task_queue q = true /\ In p (leak_worker t) /\ m = MTask (pub_queue p) (pub_task p)) \/
  (exists q t, In (MTask q t) h /\ m = MTask QUEUE_REDELIVERIES t).
Definition leak_job : job := demo_job [simple "a" <| t_retry := Some (mkRetry 1 0) |>].

Definition leak_msg (n : nat) (c : config) : task := match nth_error (w_hist (cw c)) n with Some (MTask _ t) => t | _ => blank_task end.
Definition leak_pub (k n : nat) (c : config) : msg :=
  match nth_error (leak_worker (leak_msg n c)) k with Some p => MTask (pub_queue p) (pub_task p) | None => MEvent "" blank_job end.
Definition leak_l1 : list cmd := [CApi (OSubmit leak_job); CRun 0 100; CDeliver 0; CRun 1 100].
Definition leak_c1 : config := Eval vm_compute in sim_c O0 start leak_l1.
Definition leak_c2 : config := Eval vm_compute in emit (leak_pub 0 1 leak_c1) leak_c1.
Definition leak_l3 : list cmd := [CRedeliver 2; CDeliver 3; CRun 2 100].
Definition leak_c3 : config := Eval vm_compute in sim_c O0 leak_c2 leak_l3.
Definition leak_c4 : config := Eval vm_compute in emit (leak_pub 1 4 leak_c3) leak_c3.
Definition leak_l5 : list cmd := [CDeliver 5; CRun 3 100].
Definition leak_c5 : config := Eval vm_compute in sim_c O0 leak_c4 leak_l5.

Lemma host_worker_env node wl po be st rt ft host o runtime h q t :
  In (MTask q t) h -> is_task_queue q = true -> simple_task t ->
  Forall (fun p => env_msg h (MTask (pub_queue p) (pub_task p))) (host_worker node wl po be st rt ft host o runtime t).
Proof.
  intros H1 H2 H3. unfold host_worker.
  apply C52_worker_is_env with q; [|assumption|assumption|assumption]. constructor; [apply host_gate_id|constructor].
Qed.
Lemma leak_env h q t p : In (MTask q t) h -> is_task_queue q = true -> simple_task t -> In p (leak_worker t) ->
  env_msg h (MTask (pub_queue p) (pub_task p)).
Proof.
  intros H1 H2 H3 H4.
  pose proof (host_worker_env 9%N (mkWLimits "" "" "") (fun _ => None) (fun _ => None) 10 20 30 leak_host leak_order leak_runtime h q t H1 H2 H3) as H.
  exact (proj1 (Forall_forall _ _) H p H4).
Qed.
Lemma leak_emit c k n q t p :
  nth_error (w_hist (cw c)) n = Some (MTask q t) -> is_task_queue q = true -> simple_task t -> nth_error (leak_worker t) k = Some p ->
  exec O0 c [LEmit (MTask (pub_queue p) (pub_task p))] (emit (MTask (pub_queue p) (pub_task p)) c) /\
  leak_message (w_hist (cw c)) (MTask (pub_queue p) (pub_task p)).
Proof.
  intros H1 H2 H3 H4. apply nth_error_In in H1, H4. split.
  - apply exec_one. destruct c as [w ths]. apply step_emit. eapply leak_env; eassumption.
  - left. exists q, t, p. auto.
Qed.

Theorem C93_stored_refuted : exists ls c u,
  exec O0 start ls c /\
  In u (w_tasks (cw c)) /\ HostEnv.mget (t_env u) "TOKEN" = Some (leak_host "TOKEN") /\
  (* the one request was to submit a job whose tasks have no environment *)
  (forall o, In (LApi o) ls -> o = OSubmit leak_job) /\ Forall (fun t => t_env t = []) (j_tasks leak_job) /\
  (* and the only messages from elsewhere are a worker's of that host, and a redelivery *)
  (forall m, In (LEmit m) ls -> leak_message (w_hist (cw c)) m).
Proof.
  assert (X1 : exec O0 start (sim_l O0 start leak_l1) leak_c1).
  { replace leak_c1 with (sim_c O0 start leak_l1) by (vm_compute; reflexivity).
    apply sim_c_exec; [|vm_compute; reflexivity].
    apply Forall_cons; [|repeat (apply Forall_cons; [exact I|]); apply Forall_nil].
    split; [discriminate|]. split; [|exact I]. apply Forall_cons; [|apply Forall_nil]. now repeat split. }
  assert (P2 : nth_error (leak_worker (leak_msg 1 leak_c1)) 0 = Some (mkPub QUEUE_STARTED (leak_msg 2 leak_c2) None)) by (vm_compute; reflexivity).
  assert (H2 : simple_task (leak_msg 1 leak_c1)) by (split; [reflexivity|split; reflexivity]).
  destruct (leak_emit leak_c1 0 1 "default" (leak_msg 1 leak_c1) _ eq_refl eq_refl H2 P2) as [X2 M2].
  cbn [pub_queue pub_task] in X2, M2.
  assert (X2' : exec O0 leak_c1 [LEmit (MTask QUEUE_STARTED (leak_msg 2 leak_c2))] leak_c2).
  { replace leak_c2 with (emit (MTask QUEUE_STARTED (leak_msg 2 leak_c2)) leak_c1) at 2 by (vm_compute; reflexivity). exact X2. }
  clear X2. rename X2' into X2.
  assert (X3 : exec O0 leak_c2 (sim_l O0 leak_c2 leak_l3) leak_c3).
  { replace leak_c3 with (sim_c O0 leak_c2 leak_l3) by (vm_compute; reflexivity).
    apply sim_c_exec; [|vm_compute; reflexivity]. repeat (apply Forall_cons; [exact I|]); apply Forall_nil. }
  assert (P4 : nth_error (leak_worker (leak_msg 4 leak_c3)) 1 = Some (mkPub QUEUE_ERROR (leak_msg 5 leak_c4) None)) by (vm_compute; reflexivity).
  assert (H4 : simple_task (leak_msg 4 leak_c3)) by (split; [reflexivity|split; reflexivity]).
  destruct (leak_emit leak_c3 1 4 "default" (leak_msg 4 leak_c3) _ eq_refl eq_refl H4 P4) as [X4 M4].
  cbn [pub_queue pub_task] in X4, M4.
  assert (X4' : exec O0 leak_c3 [LEmit (MTask QUEUE_ERROR (leak_msg 5 leak_c4))] leak_c4).
  { replace leak_c4 with (emit (MTask QUEUE_ERROR (leak_msg 5 leak_c4)) leak_c3) at 2 by (vm_compute; reflexivity). exact X4. }
  clear X4. rename X4' into X4.
  assert (X5 : exec O0 leak_c4 (sim_l O0 leak_c4 leak_l5) leak_c5).
  { replace leak_c5 with (sim_c O0 leak_c4 leak_l5) by (vm_compute; reflexivity).
    apply sim_c_exec; [|vm_compute; reflexivity]. repeat (apply Forall_cons; [exact I|]); apply Forall_nil. }
  pose proof (exec_app _ _ _ _ _ _ (exec_app _ _ _ _ _ _ (exec_app _ _ _ _ _ _ (exec_app _ _ _ _ _ _ X1 X2) X3) X4) X5) as X.
  assert (L1 : forall l, In l (sim_l O0 start leak_l1) -> (exists o, l = LOp o) \/ (exists m, l = LDeliver m) \/ l = LApi (OSubmit leak_job)).
  { intros l. set (ls := sim_l _ _ _). vm_compute in ls. subst ls. cbn [In]. intros H.
    repeat (destruct H as [H|H]; [rewrite <- H; eauto|]). destruct H. }
  assert (L3 : forall l, In l (sim_l O0 leak_c2 leak_l3) -> (exists o, l = LOp o) \/ (exists m, l = LDeliver m) \/ l = LEmit (MTask QUEUE_REDELIVERIES (leak_msg 2 leak_c2))).
  { intros l. set (ls := sim_l _ _ _). vm_compute in ls. subst ls. cbn [In]. intros H.
    destruct H as [H|H]; [right; right; rewrite <- H; vm_compute; reflexivity|].
    repeat (destruct H as [H|H]; [rewrite <- H; eauto|]). destruct H. }
  assert (L5 : forall l, In l (sim_l O0 leak_c4 leak_l5) -> (exists o, l = LOp o) \/ (exists m, l = LDeliver m)).
  { intros l. set (ls := sim_l _ _ _). vm_compute in ls. subst ls. cbn [In]. intros H.
    repeat (destruct H as [H|H]; [rewrite <- H; eauto|]). destruct H. }
  assert (HE : exists s3 s4 s5, w_hist (cw leak_c3) = w_hist (cw leak_c2) ++ s3 /\ w_hist (cw leak_c2) = w_hist (cw leak_c1) ++ s4 /\ w_hist (cw leak_c5) = w_hist (cw leak_c3) ++ s5).
  { exists (skipn 3 (w_hist (cw leak_c3))), (skipn 2 (w_hist (cw leak_c2))), (skipn 5 (w_hist (cw leak_c5))). vm_compute. auto. }
  destruct HE as (s3 & s4 & s5 & E3 & E4 & E5).
  assert (Mono : forall h s m, leak_message h m -> leak_message (h ++ s) m).
  { intros h s m [(q & t & p & A & B)|(q & t & A & B)]; [left; exists q, t, p|right; exists q, t]; rewrite in_app_iff; auto. }
  eexists _, leak_c5, (match nth_error (w_tasks (cw leak_c5)) 1 with Some u => u | None => blank_task end).
  split; [exact X|]. split; [eapply nth_error_In with (n := 1%nat); vm_compute; reflexivity|].
  split; [vm_compute; reflexivity|]. split; [|split; [repeat constructor|]].
  - intros o Ho. rewrite !in_app_iff in Ho. cbn [In] in Ho.
    destruct Ho as [[[[Ho|[Ho|[]]]|Ho]|[Ho|[]]]|Ho].
    + apply L1 in Ho as [(? & Ho)|[(? & Ho)|Ho]]; [discriminate Ho|discriminate Ho|]. injection Ho as ->. reflexivity.
    + discriminate Ho.
    + apply L3 in Ho as [(? & Ho)|[(? & Ho)|Ho]]; discriminate Ho.
    + discriminate Ho.
    + apply L5 in Ho as [(? & Ho)|(? & Ho)]; discriminate Ho.
  - intros m Hm. rewrite !in_app_iff in Hm. cbn [In] in Hm.
    destruct Hm as [[[[Hm|[Hm|[]]]|Hm]|[Hm|[]]]|Hm].
    + exfalso. apply L1 in Hm as [(? & E)|[(? & E)|E]]; discriminate E.
    + injection Hm as <-. rewrite E5, E3, E4. apply Mono, Mono, Mono. exact M2.
    + apply L3 in Hm as [(? & Hm)|[(? & Hm)|Hm]]; [discriminate Hm|discriminate Hm|]. injection Hm as ->.
      right. exists QUEUE_STARTED, (leak_msg 2 leak_c2). split; [|reflexivity].
      eapply nth_error_In with (n := 2%nat). vm_compute. reflexivity.
    + injection Hm as <-. rewrite E5. apply Mono. exact M4.
    + exfalso. apply L5 in Hm as [(? & E)|(? & E)]; discriminate E.
Qed.
Print Assumptions C93_stored_refuted.

(** Concrete cases: a command that does not print its environment, one that does, and one execution. *)
Example C93_nonvacuous :
  discreet leak_runtime /\
  ~ discreet (fun t => (t <| t_result := match HostEnv.mget (t_env t) "TOKEN" with Some v => v | None => "" end |>, None)) /\
  map (fun p => (pub_queue p, t_env (pub_task p))) (leak_worker (leak_msg 1 leak_c1)) = [(QUEUE_STARTED, [("TOKEN", "s3cret")]); (QUEUE_ERROR, [])] /\
  (forall u, Permutation [("TOKEN", "TOKEN")] (leak_order u)) /\
  snd (run (started_handler O0 (leak_msg 2 leak_c2)) (cw leak_c2)) = Ok tt.
Proof.
  split. { intros a b H. split; [reflexivity|]. cbn. rewrite H. destruct a. reflexivity. }
  split. { intros H. destruct (H (simple "a") (with_env (simple "a") [("TOKEN", "x")] [] []) (same_with _ _ _ _)) as [_ E]. vm_compute in E. discriminate. }
  split; [vm_compute; reflexivity|]. split; [intros; reflexivity|]. vm_compute. reflexivity.
Qed.
