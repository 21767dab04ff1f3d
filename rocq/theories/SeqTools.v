(** Lemmas combining SeqLogic and SpecSeq. *)
From Verif Require Export SeqLogic SpecSeq.
From Verif Require Import InvSched.
Open Scope string_scope.
Open Scope list_scope.
Open Scope Z_scope.

Lemma deliver_pending O fuel t : deliver O fuel (MTask QUEUE_PENDING t) = task_wrapper O (pending_handler O) t. Proof. reflexivity. Qed.
Lemma deliver_completed O fuel t : deliver O fuel (MTask QUEUE_COMPLETED t) = task_wrapper O (completed_handler O fuel) t. Proof. reflexivity. Qed.
Lemma deliver_started O fuel t : deliver O fuel (MTask QUEUE_STARTED t) = task_wrapper O (started_handler O) t. Proof. reflexivity. Qed.
Lemma deliver_error O fuel t : deliver O fuel (MTask QUEUE_ERROR t) = task_wrapper O (error_handler O) t. Proof. reflexivity. Qed.
Lemma deliver_redelivered O fuel t : deliver O fuel (MTask QUEUE_REDELIVERIES t) = redelivered_handler t. Proof. reflexivity. Qed.
Lemma deliver_job O fuel j : deliver O fuel (MJob j) = job_wrapper O (job_handler O) j. Proof. reflexivity. Qed.
Lemma deliver_progress O fuel t : deliver O fuel (MProgress t) = task_wrapper O progress_handler t. Proof. reflexivity. Qed.

Lemma find_task_id i w t : find_task i w = Some t -> t_id t = i.
Proof. rewrite find_task_t. apply tfind_key. Qed.
Lemma find_job_id i w t : find_job i w = Some t -> j_id t = i.
Proof. rewrite find_job_t. apply tfind_key. Qed.
Lemma find_task_in i w t : find_task i w = Some t -> In t (w_tasks w).
Proof. rewrite find_task_t. apply tfind_in. Qed.
Lemma find_job_in i w t : find_job i w = Some t -> In t (w_jobs w).
Proof. rewrite find_job_t. apply tfind_in. Qed.

Lemma map_id_put_task u l : map t_id (put_task u l) = map t_id l.
Proof.
  unfold put_task. rewrite map_map. apply map_ext. intros x. destruct (N.eqb (t_id x) (t_id u)) eqn:E; [|reflexivity].
  apply N.eqb_eq in E. auto.
Qed.
Lemma map_id_put_job u l : map j_id (put_job u l) = map j_id l.
Proof.
  unfold put_job. rewrite map_map. apply map_ext. intros x. destruct (N.eqb (j_id x) (j_id u)) eqn:E; [|reflexivity].
  apply N.eqb_eq in E. auto.
Qed.

(** the effect of one update, for any later world that has the resulting table *)
Lemma put_task_effect w w' u u' : find_task (t_id u) w = Some u -> t_id u' = t_id u ->
  w_tasks w' = put_task u' (w_tasks w) -> find_task (t_id u) w' = Some u' /\ only_task (t_id u) w w'.
Proof.
  intros Hf Hi Hw. unfold only_task. assert (E : forall k, find_task k w' = find_task k (w <| w_tasks := put_task u' (w_tasks w) |>)).
  { intros k. unfold find_task. now rewrite Hw. }
  repeat split.
  - rewrite E, <- Hi. erewrite find_put_task_same; [reflexivity|]. now rewrite Hi, Hf.
  - intros k Hk. rewrite E. apply find_put_task_other. congruence.
  - rewrite Hw. apply map_id_put_task.
Qed.
Lemma put_job_effect w w' u u' : find_job (j_id u) w = Some u -> j_id u' = j_id u ->
  w_jobs w' = put_job u' (w_jobs w) -> find_job (j_id u) w' = Some u' /\ only_job (j_id u) w w'.
Proof.
  intros Hf Hi Hw. unfold only_job. assert (E : forall k, find_job k w' = find_job k (w <| w_jobs := put_job u' (w_jobs w) |>)).
  { intros k. unfold find_job. now rewrite Hw. }
  repeat split.
  - rewrite E, <- Hi. erewrite find_put_job_same; [reflexivity|]. now rewrite Hi, Hf.
  - intros k Hk. rewrite E. apply find_put_job_other. congruence.
  - rewrite Hw. apply map_id_put_job.
Qed.

(** Crash points. *)
Lemma after_done {A} n (o : outcome A) w : after n (Done o) w = w. Proof. destruct n; reflexivity. Qed.
Lemma after_op_bind {A B} n (f : act A) (g : A -> prog B) w :
  after n (bind (op f) g) w = match n with
    | O => w
    | S n => let '(w', o) := f w in match o with Ok a => after n (g a) w' | _ => w' end end.
Proof. destruct n; [reflexivity|]. cbn. destruct (f w) as [w' []]; cbn; rewrite ?after_done; reflexivity. Qed.
Lemma after_op {A} n (f : act A) w : after n (op f) w = match n with O => w | S n => fst (f w) end.
Proof. destruct n; [reflexivity|]. cbn. destruct (f w) as [w' []]; cbn; rewrite ?after_done; reflexivity. Qed.
Lemma after_bind {A B} (P : world -> Prop) (p : prog A) : forall (g : A -> prog B) w n,
  (forall n, P (after n p w)) ->
  (forall w' a n, run p w = (w', Ok a) -> P (after n (g a) w')) -> P (after n (bind p g) w).
Proof.
  induction p as [o|C f k IH]; intros g w n H1 H2.
  - specialize (H1 0%nat). cbn in H1. destruct o; cbn [bind]; [apply H2; reflexivity|rewrite after_done; auto..].
  - cbn [bind]. destruct n as [|n]; [exact (H1 0%nat)|]. cbn [after]. cbn [run] in H2. destruct (f w) as [w' r] eqn:E.
    apply IH.
    + intros m. specialize (H1 (S m)). cbn [after] in H1. now rewrite E in H1.
    + intros w'' a m Hr. apply H2. exact Hr.
Qed.
Lemma after_catch {A} (P : world -> Prop) (p : prog A) : forall h w n,
  (forall n, P (after n p w)) ->
  (forall w' e m n, run p w = (w', Err e m) -> P (after n (h e m) w')) -> P (after n (catch p h) w).
Proof.
  induction p as [o|C f k IH]; intros h w n H1 H2.
  - specialize (H1 0%nat). cbn in H1. destruct o; cbn [catch]; [rewrite after_done; auto|apply H2; reflexivity|rewrite after_done; auto..].
  - cbn [catch]. destruct n as [|n]; [exact (H1 0%nat)|]. cbn [after]. cbn [run] in H2. destruct (f w) as [w' r] eqn:E.
    apply IH.
    + intros m. specialize (H1 (S m)). cbn [after] in H1. now rewrite E in H1.
    + intros w'' a m n' Hr. eapply H2. exact Hr.
Qed.
Lemma after_with_msg {A} n t (p : prog A) w : after n (with_msg t p) w = after n p w.
Proof.
  unfold with_msg. revert w n. induction p as [o|C f k IH]; intros w n; cbn [catch].
  - destruct o; cbn; rewrite ?after_done; reflexivity.
  - destruct n; [reflexivity|]. cbn [after]. destruct (f w). apply IH.
Qed.
Lemma after_all {A} (p : prog A) w : exists n, forall m, (n <= m)%nat -> after m p w = fst (run p w).
Proof.
  revert w. induction p as [o|C f k IH]; intros w.
  - exists 0%nat. intros. now rewrite after_done.
  - destruct (f w) as [w' r] eqn:E. destruct (IH r w') as [n Hn]. exists (S n). intros [|m] Hm; [lia|]. cbn. rewrite E. apply Hn. lia.
Qed.
Lemma fst_run_op {A} (f : act A) w : fst (f w) = fst (run (op f) w).
Proof. now rewrite run_op. Qed.

Lemma eval_identity f i jb pa s pos cr t :
  eval_task f (identity i jb pa s pos cr t) = match eval_task f t with inl d => inl (identity i jb pa s pos cr d) | inr e => inr e end.
Proof.
  unfold identity. rewrite (task_eta t). cbn.
  repeat match goal with |- match ?x with _ => _ end = _ =>
      lazymatch x with
      | match t_parallel t with _ => _ end => destruct (t_parallel t) as [p|]; [destruct (eval_list (eval_task f) (p_tasks p)); [|reflexivity]|]
      | match t_subjob t with _ => _ end => destruct (t_subjob t) as [p'|]; [destruct (eval_subjob f p'); [|reflexivity]|]
      | _ => destruct x; [|reflexivity] end end; reflexivity.
Qed.

(** the world after children [cs] were created and [ps] published *)
Definition spawned (w : world) (cs ps : list task) : world :=
  w <| w_tasks := w_tasks w ++ map db_task cs |> <| w_hist := w_hist w ++ map (MTask QUEUE_PENDING) ps |>
    <| w_fresh := (w_fresh w + N.of_nat (length cs))%N |>.
Lemma world_eq w w' : w_tasks w = w_tasks w' -> w_jobs w = w_jobs w' -> w_nodes w = w_nodes w' -> w_hist w = w_hist w' ->
  w_fresh w = w_fresh w' -> w_clock w = w_clock w' -> w_faults w = w_faults w' -> w_auto w = w_auto w' -> w = w'.
Proof. destruct w, w'; cbn; intros; congruence. Qed.
Lemma spawned_nil w : spawned w [] [] = w.
Proof. apply world_eq; try reflexivity; cbn -[N.add]; try apply app_nil_r. apply N.add_0_r. Qed.
Lemma spawned_cons w c cs ps (b : bool) :
  spawned (w <| w_fresh := N.succ (w_fresh w) |> <| w_tasks := w_tasks w ++ [db_task c] |>
             <| w_hist := w_hist w ++ (if b then [MTask QUEUE_PENDING c] else []) |>) cs ps
  = spawned w (c :: cs) (if b then c :: ps else ps).
Proof. apply world_eq; try reflexivity; cbn -[N.add N.of_nat]; rewrite <- ?app_assoc; try reflexivity; [destruct b; reflexivity|destruct b; cbn [length]; lia]. Qed.

Definition ids_below (w : world) : Prop := forall t, In t (w_tasks w) -> (t_id t < w_fresh w)%N.
Lemma fresh_not_found w : ids_below w -> find_task (w_fresh w) w = None.
Proof.
  intros H. destruct (find_task (w_fresh w) w) as [t|] eqn:E; [|reflexivity].
  pose proof (find_task_id _ _ _ E). apply find_task_in in E. apply H in E. lia.
Qed.
Lemma ids_below_step w c : ids_below w -> t_id c = w_fresh w ->
  ids_below (w <| w_fresh := N.succ (w_fresh w) |> <| w_tasks := w_tasks w ++ [db_task c] |>).
Proof.
  intros H Hc t Hin. cbn in *. apply in_app_iff in Hin as [Hin|[<-|[]]]; [apply H in Hin; lia|]. cbn. rewrite Hc. lia.
Qed.
Lemma Inv_ids_below w : Inv w -> ids_below w.
Proof. intros H t Hin. apply (inv_task_fresh _ H) in Hin. lia. Qed.
Lemma put_job_put a b l : j_id a = j_id b -> put_job a (put_job b l) = put_job a l.
Proof.
  intros E. unfold put_job. rewrite map_map. apply map_ext. intros x. destruct (N.eqb (j_id x) (j_id b)) eqn:Ex.
  - rewrite E, N.eqb_refl, Ex. reflexivity.
  - rewrite E, Ex. reflexivity.
Qed.
Lemma put_task_put a b l : t_id a = t_id b -> put_task a (put_task b l) = put_task a l.
Proof.
  intros E. unfold put_task. rewrite map_map. apply map_ext. intros x. destruct (N.eqb (t_id x) (t_id b)) eqn:Ex.
  - rewrite E, N.eqb_refl, Ex. reflexivity.
  - rewrite E, Ex. reflexivity.
Qed.
