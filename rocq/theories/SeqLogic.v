(** Symbolic execution of handlers alone ([run]); lemmas for worlds in which no operation fails. *)
From Verif Require Export Logic SpecState.
Open Scope string_scope.
Open Scope list_scope.
Open Scope Z_scope.

(** No operation fails. *)
Definition nofault (w : world) : Prop := w_faults w = [].

Lemma run_bind {A B} (p : prog A) (f : A -> prog B) w :
  run (bind p f) w = let '(w', o) := run p w in
    match o with Ok a => run (f a) w' | Err e m => (w', Err e m) | Panic => (w', Panic) | OutOfFuel => (w', OutOfFuel) end.
Proof.
  revert w. induction p as [o|C g k IH]; intros w; cbn [bind run].
  - destruct o; reflexivity.
  - destruct (g w) as [w1 r]. apply IH.
Qed.
Lemma run_catch {A} (p : prog A) h w :
  run (catch p h) w = let '(w', o) := run p w in match o with Err e m => run (h e m) w' | o => (w', o) end.
Proof.
  revert w. induction p as [o|C g k IH]; intros w; cbn [catch run].
  - destruct o; reflexivity.
  - destruct (g w) as [w1 r]. apply IH.
Qed.
Lemma run_with_msg {A} t (p : prog A) w :
  run (with_msg t p) w = let '(w', o) := run p w in
    match o with Err e m => (w', Err e (match m with Some t' => Some t' | None => Some t end)) | o => (w', o) end.
Proof. unfold with_msg. rewrite run_catch. destruct (run p w) as [w' []]; reflexivity. Qed.
Lemma run_op {A} (f : act A) w : run (op f) w = f w.
Proof. cbn. destruct (f w); reflexivity. Qed.
Lemma run_ret {A} (a : A) w : run (ret a) w = (w, Ok a). Proof. reflexivity. Qed.
Lemma run_fail {A} e w : run (@fail A e) w = (w, Err e None). Proof. reflexivity. Qed.

Lemma faulty_no {A} (f : act A) w : nofault w -> faulty f w = f w.
Proof. unfold faulty. intros ->. reflexivity. Qed.

Lemma run_get_task i w : nofault w -> run (get_task i) w = (w, match find_task i w with Some t => Ok t | None => Err "task not found" None end).
Proof. intros H. unfold get_task. rewrite run_op. unfold a_get_task. rewrite faulty_no by exact H. destruct (find_task i w); reflexivity. Qed.
Lemma run_get_job i w : nofault w -> run (get_job i) w = (w, match find_job i w with Some t => Ok t | None => Err "job not found" None end).
Proof. intros H. unfold get_job. rewrite run_op. unfold a_get_job. rewrite faulty_no by exact H. destruct (find_job i w); reflexivity. Qed.
Lemma run_get_node i w : nofault w -> run (get_node i) w = (w, match find_node i w with Some t => Ok t | None => Err "node not found" None end).
Proof. intros H. unfold get_node. rewrite run_op. unfold a_get_node. rewrite faulty_no by exact H. destruct (find_node i w); reflexivity. Qed.
Lemma run_get_active i w : nofault w ->
  run (get_active i) w = (w, Ok (filter (fun t => N.eqb (t_job t) i && active (t_state t))%bool (w_tasks w))).
Proof. intros H. unfold get_active. rewrite run_op. unfold a_get_active. now rewrite faulty_no by exact H. Qed.
Lemma run_now w : run now w = (w, Ok (w_clock w)). Proof. reflexivity. Qed.
Lemma run_new_id w : run new_id w = (w <| w_fresh := N.succ (w_fresh w) |>, Ok (w_fresh w)). Proof. reflexivity. Qed.
Lemma run_publish m w : nofault w -> run (op (a_publish m)) w = (w <| w_hist := w_hist w ++ [m] |>, Ok tt).
Proof. intros H. rewrite run_op. unfold a_publish. now rewrite faulty_no by exact H. Qed.
Lemma run_update_task {A} i (f : task -> outcome (task * A)) w u u' a : nofault w -> find_task i w = Some u -> f u = Ok (u', a) ->
  run (update_task i f) w = (w <| w_tasks := put_task u' (w_tasks w) |>, Ok a).
Proof. intros H E Ef. unfold update_task. rewrite run_op. unfold a_update_task. rewrite faulty_no by exact H. now rewrite E, Ef. Qed.
Lemma run_update_job {A} i (f : job -> outcome (job * A)) w u u' a : nofault w -> find_job i w = Some u -> f u = Ok (u', a) ->
  run (update_job i f) w = (w <| w_jobs := put_job u' (w_jobs w) |>, Ok a).
Proof. intros H E Ef. unfold update_job. rewrite run_op. unfold a_update_job. rewrite faulty_no by exact H. now rewrite E, Ef. Qed.
Lemma run_create_task t w j : nofault w -> find_task (t_id t) w = None -> find_job (t_job t) w = Some j ->
  run (create_task t) w = (w <| w_tasks := w_tasks w ++ [db_task t] |>, Ok tt).
Proof.
  intros H E Ej. unfold create_task. rewrite run_op. unfold a_create_task. rewrite faulty_no by exact H.
  rewrite find_task_t in E. apply tfind_none in E. rewrite E.
  destruct (existsb (fun j0 => N.eqb (j_id j0) (t_job t)) (w_jobs w)) eqn:Ex; [reflexivity|].
  apply (tfind_none j_id) in Ex. rewrite find_job_t in Ej. congruence.
Qed.
Lemma run_create_job j w : nofault w -> find_job (j_id j) w = None ->
  run (create_job j) w = (w <| w_jobs := w_jobs w ++ [j] |>, Ok tt).
Proof.
  intros H E. unfold create_job. rewrite run_op. unfold a_create_job. rewrite faulty_no by exact H.
  rewrite find_job_t in E. apply tfind_none in E. now rewrite E.
Qed.

(** Table lookups after updates. *)
Lemma find_put_task_same w u u' : find_task (t_id u') w = Some u -> find_task (t_id u') (w <| w_tasks := put_task u' (w_tasks w) |>) = Some u'.
Proof. rewrite !find_task_t. cbn [w_tasks]. apply tfind_put_same. Qed.
Lemma find_put_task_other w u' i : i <> t_id u' -> find_task i (w <| w_tasks := put_task u' (w_tasks w) |>) = find_task i w.
Proof. rewrite !find_task_t. apply tfind_put_other. Qed.
Lemma find_put_job_same w u u' : find_job (j_id u') w = Some u -> find_job (j_id u') (w <| w_jobs := put_job u' (w_jobs w) |>) = Some u'.
Proof. rewrite !find_job_t. apply tfind_put_same. Qed.
Lemma find_put_job_other w u' i : i <> j_id u' -> find_job i (w <| w_jobs := put_job u' (w_jobs w) |>) = find_job i w.
Proof. rewrite !find_job_t. apply tfind_put_other. Qed.

(** With faults: an operation either fails with no effect but on the faults, or behaves as written. *)
Lemma faulty_cases {A} (f : act A) w :
  exists fs, faulty f w = (w <| w_faults := fs |>, Err "fault" None) \/ faulty f w = f (w <| w_faults := fs |>).
Proof.
  unfold faulty. destruct w as [a b c d e f0 [|[] r] h]; cbn.
  - exists []. now right.
  - exists r. now left.
  - exists r. now right.
Qed.
(** The stored data, messages and clock are the same. *)
Definition calm (w w' : world) : Prop :=
  w_tasks w' = w_tasks w /\ w_jobs w' = w_jobs w /\ w_nodes w' = w_nodes w /\ w_hist w' = w_hist w /\
  w_fresh w' = w_fresh w /\ w_clock w' = w_clock w /\ w_auto w' = w_auto w.
Lemma calm_refl w : calm w w. Proof. unfold calm; auto 10. Qed.
Lemma calm_faults w fs : calm w (w <| w_faults := fs |>). Proof. unfold calm; cbn; auto 10. Qed.
Lemma calm_trans a b c : calm a b -> calm b c -> calm a c.
Proof. unfold calm. intros (?&?&?&?&?&?&?) (?&?&?&?&?&?&?). repeat split; congruence. Qed.
Lemma calm_find_task i w w' : calm w w' -> find_task i w' = find_task i w.
Proof. intros (H&_). unfold find_task. now rewrite H. Qed.
Lemma calm_find_job i w w' : calm w w' -> find_job i w' = find_job i w.
Proof. intros (_&H&_). unfold find_job. now rewrite H. Qed.
Lemma calm_find_node i w w' : calm w w' -> find_node i w' = find_node i w.
Proof. intros (_&_&H&_). unfold find_node. now rewrite H. Qed.

Lemma case_get_job i w : exists w1, calm w w1 /\
  ((exists j, find_job i w = Some j /\ run (get_job i) w = (w1, Ok j)) \/ (exists e, run (get_job i) w = (w1, Err e None))).
Proof.
  unfold get_job. rewrite run_op. unfold a_get_job. destruct (faulty_cases (fun w0 => match find_job i w0 with Some j => (w0, Ok j) | None => (w0, Err "job not found" None) end) w) as (fs & [E|E]); rewrite E; exists (w <| w_faults := fs |>); (split; [apply calm_faults|]).
  - right; eauto.
  - rewrite (calm_find_job i w (w <| w_faults := fs |>)) by apply calm_faults. destruct (find_job i w) eqn:F; [left; exists j; auto|right; eauto].
Qed.
Lemma case_get_task i w : exists w1, calm w w1 /\
  ((exists j, find_task i w = Some j /\ run (get_task i) w = (w1, Ok j)) \/ (exists e, run (get_task i) w = (w1, Err e None))).
Proof.
  unfold get_task. rewrite run_op. unfold a_get_task. destruct (faulty_cases (fun w0 => match find_task i w0 with Some j => (w0, Ok j) | None => (w0, Err "task not found" None) end) w) as (fs & [E|E]); rewrite E; exists (w <| w_faults := fs |>); (split; [apply calm_faults|]).
  - right; eauto.
  - rewrite (calm_find_task i w (w <| w_faults := fs |>)) by apply calm_faults. destruct (find_task i w) as [j|] eqn:F; [left; exists j; auto|right; eauto].
Qed.
Lemma case_update_task i (f : task -> task) w : exists w1,
  (calm w w1 /\ exists e, run (update_task i (modi f)) w = (w1, Err e None)) \/
  (exists u, find_task i w = Some u /\ calm (w <| w_tasks := put_task (f u) (w_tasks w) |>) w1 /\ run (update_task i (modi f)) w = (w1, Ok tt)).
Proof.
  unfold update_task. rewrite run_op. unfold a_update_task.
  match goal with |- context [faulty ?g w] => destruct (faulty_cases g w) as (fs & [E|E]) end; rewrite E.
  - eexists. left. split; [apply calm_faults|eauto].
  - rewrite (calm_find_task i w (w <| w_faults := fs |>)) by apply calm_faults. destruct (find_task i w) as [u|] eqn:F.
    + eexists. right. exists u. split; [auto|]. unfold modi. split; [|reflexivity]. unfold calm; cbn; auto 10.
    + eexists. left. split; [apply calm_faults|eauto].
Qed.
Lemma case_publish m w : exists w1,
  (calm w w1 /\ exists e, run (op (a_publish m)) w = (w1, Err e None)) \/
  (calm (w <| w_hist := w_hist w ++ [m] |>) w1 /\ run (op (a_publish m)) w = (w1, Ok tt)).
Proof.
  rewrite run_op. unfold a_publish.
  match goal with |- context [faulty ?g w] => destruct (faulty_cases g w) as (fs & [E|E]) end; rewrite E.
  - eexists. left. split; [apply calm_faults|eauto].
  - eexists. right. split; [|reflexivity]. unfold calm; cbn; auto 10.
Qed.
