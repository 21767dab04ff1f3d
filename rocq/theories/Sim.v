(** An executable front end to the machine of System.v, used to exhibit concrete executions (non-vacuity and
    counterexamples). Not part of the model: [sim_exec] shows every simulated run is a machine execution. *)
From Verif Require Export System.
Open Scope string_scope.
Open Scope list_scope.
Open Scope Z_scope.

Inductive cmd :=
| CDeliver (n : nat)               (* deliver the n-th message of the history *)
| CApi (o : origin)
| COp (n : nat)                    (* one operation of thread n *)
| CRun (n : nat) (steps : nat)     (* at most that many operations of thread n *)
| CKill (n : nat)
| CEnv (c : time) (fs : list bool)
| CStart (n : nat) (node : id)                (* a worker reports on the n-th message *)
| CComplete (n : nat) (r : string)
| CFail (n : nat) (e : string)
| CProgress (n : nat) (p : Z)
| CRedeliver (n : nat)
| CHeartbeat (nd : node).

Section Sim.
Variable O : oracle.

Fixpoint upd {A} (n : nat) (x : A) (l : list A) : list A :=
  match l, n with
  | [], _ => []
  | _ :: r, 0%nat => x :: r
  | a :: r, S n => a :: upd n x r
  end.
Fixpoint del {A} (n : nat) (l : list A) : list A :=
  match l, n with
  | [], _ => []
  | _ :: r, 0%nat => r
  | a :: r, S n => a :: del n r
  end.

Definition sim_op (n : nat) (c : config) : option (config * label) :=
  match nth_error (cthreads c) n with
  | Some (o, Step f k) =>
      let '(w', r) := f (cw c) in Some (mkConfig w' (upd n (o, k r) (cthreads c)), LOp o)
  | _ => None
  end.
Fixpoint sim_run (n : nat) (steps : nat) (c : config) : config * list label :=
  match steps with
  | 0%nat => (c, [])
  | S s => match sim_op n c with
           | None => (c, [])
           | Some (c', l) => let '(c'', ls) := sim_run n s c' in (c'', l :: ls)
           end
  end.
Definition emit (m : msg) (c : config) : config := mkConfig (cw c <| w_hist := w_hist (cw c) ++ [m] |>) (cthreads c).
Definition worker_msg (n : nat) (c : config) : option task :=
  match nth_error (w_hist (cw c)) n with
  | Some (MTask q t) => if is_task_queue q then Some t else None
  | _ => None
  end.

Definition sim1 (a : cmd) (c : config) : option (config * list label) :=
  match a with
  | CDeliver n =>
      match nth_error (w_hist (cw c)) n with
      | Some m => Some (mkConfig (cw c) (cthreads c ++ [(OMsg m, deliver O (N.to_nat (w_fresh (cw c))) m)]), [LDeliver m])
      | None => None
      end
  | CApi o => match api_prog o with
              | Some p => Some (mkConfig (cw c) (cthreads c ++ [(o, p)]), [LApi o])
              | None => None
              end
  | COp n => match sim_op n c with Some (c', l) => Some (c', [l]) | None => None end
  | CRun n s => Some (sim_run n s c)
  | CKill n => match nth_error (cthreads c) n with
               | Some (o, _) => Some (mkConfig (cw c) (del n (cthreads c)), [LKill o])
               | None => None
               end
  | CEnv clk fs => Some (mkConfig (cw c <| w_clock := clk |> <| w_faults := fs |>) (cthreads c), [LEnv])
  | CStart n nd =>
      match worker_msg n c with
      | Some t => let m := MTask QUEUE_STARTED (t <| t_state := TRunning |> <| t_node := nd |>) in Some (emit m c, [LEmit m])
      | None => None
      end
  | CComplete n r =>
      match worker_msg n c with
      | Some t => let m := MTask QUEUE_COMPLETED (t <| t_state := TCompleted |> <| t_result := r |>) in Some (emit m c, [LEmit m])
      | None => None
      end
  | CFail n e =>
      match worker_msg n c with
      | Some t => let m := MTask QUEUE_ERROR (t <| t_state := TFailed |> <| t_error := e |>) in Some (emit m c, [LEmit m])
      | None => None
      end
  | CProgress n p =>
      match worker_msg n c with
      | Some t => let m := MProgress (t <| t_progress := p |>) in Some (emit m c, [LEmit m])
      | None => None
      end
  | CRedeliver n =>
      match nth_error (w_hist (cw c)) n with
      | Some (MTask q t) => let m := MTask QUEUE_REDELIVERIES t in Some (emit m c, [LEmit m])
      | _ => None
      end
  | CHeartbeat nd =>
      if String.prefix QUEUE_EXCLUSIVE_PREFIX (n_queue nd)
      then Some (emit (MHeartbeat nd) c, [LEmit (MHeartbeat nd)]) else None
  end.

Fixpoint sim (l : list cmd) (c : config) : option (config * list label) :=
  match l with
  | [] => Some (c, [])
  | a :: r =>
      match sim1 a c with
      | None => None
      | Some (c', ls) => match sim r c' with None => None | Some (c'', ls') => Some (c'', ls ++ ls') end
      end
  end.

Definition cmd_ok (a : cmd) : Prop := match a with CApi o => api_ok o | _ => True end.

Lemma exec_app c1 l1 c2 l2 c3 : exec O c1 l1 c2 -> exec O c2 l2 c3 -> exec O c1 (l1 ++ l2) c3.
Proof.
  intros H1 H2. induction H2 as [|c2 l2 c3 l c4 H2 IH S]; [now rewrite app_nil_r|].
  rewrite app_assoc. econstructor; eauto.
Qed.
Lemma exec_one c l c' : step O c l c' -> exec O c [l] c'.
Proof. intros S. change [l] with ([] ++ [l]). econstructor; [constructor|exact S]. Qed.

Lemma upd_split {A} n (x y : A) l : nth_error l n = Some x -> exists l1 l2, l = l1 ++ x :: l2 /\ upd n y l = l1 ++ y :: l2.
Proof.
  revert l; induction n as [|n IH]; intros [|a l]; cbn; try easy.
  - intros E; injection E as <-. exists [], l. auto.
  - intros E. destruct (IH l E) as (l1 & l2 & -> & E2). exists (a :: l1), l2. cbn. rewrite E2. auto.
Qed.
Lemma del_split {A} n (x : A) l : nth_error l n = Some x -> exists l1 l2, l = l1 ++ x :: l2 /\ del n l = l1 ++ l2.
Proof.
  revert l; induction n as [|n IH]; intros [|a l]; cbn; try easy.
  - intros E; injection E as <-. exists [], l. auto.
  - intros E. destruct (IH l E) as (l1 & l2 & -> & E2). exists (a :: l1), l2. cbn. rewrite E2. auto.
Qed.

Lemma sim_op_step n c c' l : sim_op n c = Some (c', l) -> step O c l c'.
Proof.
  unfold sim_op. destruct c as [w ths]; cbn. destruct (nth_error ths n) as [[o [r|B f k]]|] eqn:E; try easy.
  destruct (f w) as [w' r] eqn:Ef. intros H; injection H as <- <-.
  destruct (upd_split _ _ (o, k r) _ E) as (l1 & l2 & -> & ->). now constructor.
Qed.
Lemma sim_run_exec n s : forall c c' ls, sim_run n s c = (c', ls) -> exec O c ls c'.
Proof.
  induction s as [|s IH]; cbn; intros c c' ls H.
  - injection H as <- <-. constructor.
  - destruct (sim_op n c) as [[c1 l]|] eqn:E; [|injection H as <- <-; constructor].
    destruct (sim_run n s c1) as [c2 ls2] eqn:E2. injection H as <- <-.
    change (l :: ls2) with ([l] ++ ls2). eapply exec_app; [apply exec_one; eauto using sim_op_step|eauto].
Qed.
Lemma worker_msg_in n c t : worker_msg n c = Some t -> exists q, In (MTask q t) (w_hist (cw c)) /\ is_task_queue q = true.
Proof.
  unfold worker_msg. destruct (nth_error (w_hist (cw c)) n) as [[q t'| | | |]|] eqn:E; try easy.
  destruct (is_task_queue q) eqn:Eq; [|easy]. intros H; injection H as <-. eauto using nth_error_In.
Qed.
Lemma sim1_exec a c c' ls : cmd_ok a -> sim1 a c = Some (c', ls) -> exec O c ls c'.
Proof.
  destruct a; cbn [cmd_ok sim1]; intros Hok.
  - destruct (nth_error (w_hist (cw c)) n) eqn:E; [|easy]. intros H; injection H as <- <-.
    destruct c; apply exec_one. constructor. eapply nth_error_In; eauto.
  - destruct (api_prog o) eqn:E; [|easy]. intros H; injection H as <- <-.
    destruct c; apply exec_one. now constructor.
  - destruct (sim_op n c) as [[c1 l]|] eqn:E; [|easy]. intros H; injection H as <- <-. eauto using exec_one, sim_op_step.
  - intros H; injection H as H. eauto using sim_run_exec.
  - destruct (nth_error (cthreads c) n) as [[o p]|] eqn:E; [|easy]. intros H; injection H as <- <-.
    destruct c as [w ths]; cbn in *. destruct (del_split _ _ _ E) as (l1 & l2 & -> & ->). apply exec_one. constructor.
  - intros H; injection H as <- <-. destruct c. apply exec_one. constructor.
  - destruct (worker_msg n c) eqn:E; [|easy]. intros H; injection H as <- <-. apply worker_msg_in in E as (q & Hin & Hq).
    destruct c; apply exec_one, step_emit. eapply env_started; eauto. unfold worker_report; cbn; auto 20.
  - destruct (worker_msg n c) eqn:E; [|easy]. intros H; injection H as <- <-. apply worker_msg_in in E as (q & Hin & Hq).
    destruct c; apply exec_one, step_emit. eapply env_completed; eauto. unfold worker_report; cbn; auto 20.
  - destruct (worker_msg n c) eqn:E; [|easy]. intros H; injection H as <- <-. apply worker_msg_in in E as (q & Hin & Hq).
    destruct c; apply exec_one, step_emit. eapply env_failed; eauto. unfold worker_report; cbn; auto 20.
  - destruct (worker_msg n c) eqn:E; [|easy]. intros H; injection H as <- <-. apply worker_msg_in in E as (q & Hin & Hq).
    destruct c; apply exec_one, step_emit. eapply env_progress; eauto. unfold worker_report; cbn; auto 20.
  - destruct (nth_error (w_hist (cw c)) n) as [[q t| | | |]|] eqn:E; try easy. intros H; injection H as <- <-.
    destruct c; apply exec_one, step_emit. eapply env_redelivered, nth_error_In; eauto.
  - destruct (String.prefix _ _) eqn:E; [|easy]. intros H; injection H as <- <-. destruct c; apply exec_one, step_emit. now constructor.
Qed.
Lemma sim_exec l : forall c c' ls, Forall cmd_ok l -> sim l c = Some (c', ls) -> exec O c ls c'.
Proof.
  induction l as [|a l IH]; cbn [sim]; intros c c' ls Hok H.
  - injection H as <- <-. constructor.
  - inversion Hok; subst. destruct (sim1 a c) as [[c1 l1]|] eqn:E; [|easy].
    destruct (sim l c1) as [[c2 l2]|] eqn:E2; [|easy]. injection H as <- <-. eapply exec_app; eauto using sim1_exec.
Qed.

(** Run from the empty deployment. *)
Definition start : config := mkConfig (empty_world 1000 []) [].
Lemma sim_reachable l c ls : Forall cmd_ok l -> sim l start = Some (c, ls) -> reachable O c.
Proof. intros H E. exists start, ls. split; [now exists 1000, []|eapply sim_exec; eauto]. Qed.
End Sim.

(** A concrete oracle: templates are literal, every list expression has three elements. *)
Definition O0 : oracle := mkOracle unit (fun _ _ s => inl s) (fun _ _ => inl (Some [tt; tt; tt])) (fun _ => Some 5).

Definition blank_task : task :=
  mkTask noid noid noid 0 "" "" TCreated None None None None None [] [] "" "" None [] [] "" 0 "" [] [] [] [] [] noid None None "" "" ""
    "" None None None "" [] "" 0 0 None.
Definition blank_job : job :=
  mkJob noid noid "" "" [] JPending 0 None None None None [] [] 0 [] (mkCtx [] [] [] []) 0 "" "" "" None [] [] None None [] 0 None.
Definition demo_job (ts : list task) : job := blank_job <| j_name := "demo" |> <| j_tasks := ts |>.
Definition simple (nm : string) : task := blank_task <| t_name := nm |> <| t_image := "alpine" |>.

(** The configuration and labels reached by a command list (the commands all applicable: [sim_ran]). *)
Definition sim_c (O : oracle) (c : config) (l : list cmd) : config := match sim O l c with Some (c', _) => c' | None => c end.
Definition sim_l (O : oracle) (c : config) (l : list cmd) : list label := match sim O l c with Some (_, ls) => ls | None => [] end.
Definition sim_ran (O : oracle) (c : config) (l : list cmd) : bool := match sim O l c with Some _ => true | None => false end.
Lemma sim_c_exec O c l : Forall cmd_ok l -> sim_ran O c l = true -> exec O c (sim_l O c l) (sim_c O c l).
Proof.
  unfold sim_c, sim_l, sim_ran. destruct (sim O l c) as [[c' ls]|] eqn:E; [|easy]. intros H _. eapply sim_exec; eauto.
Qed.
Lemma start_initial : initial start.
Proof. now exists 1000, []. Qed.
Lemma sim_c_reachable O l : Forall cmd_ok l -> sim_ran O start l = true -> reachable O (sim_c O start l).
Proof. intros H1 H2. exists start, (sim_l O start l). split; [apply start_initial|now apply sim_c_exec]. Qed.
