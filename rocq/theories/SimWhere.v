(** Simulated executions (Sim.v) every step of which satisfies a test. Used in examples only. *)
From Verif Require Export Sim SpecEffect.
Open Scope string_scope.
Open Scope list_scope.
Open Scope Z_scope.

Section W.
Variable O : oracle.
Variable P : world -> world -> bool.
Notation PP := (fun w w' => P w w' = true).

Fixpoint run_where (n steps : nat) (c : config) : bool :=
  match steps with
  | 0%nat => true
  | S s => match sim_op n c with
           | None => true
           | Some (c', _) => (P (cw c) (cw c') && run_where n s c')%bool
           end
  end.
Definition cmd_where (a : cmd) (c : config) : bool :=
  match a with
  | CRun n s => run_where n s c
  | _ => match sim1 O a c with Some (c', _) => P (cw c) (cw c') | None => true end
  end.
Fixpoint all_where (l : list cmd) (c : config) : bool :=
  match l with
  | [] => true
  | a :: r => (cmd_where a c && match sim1 O a c with Some (c', _) => all_where r c' | None => true end)%bool
  end.
Lemma where_app c1 l1 c2 l2 c3 : exec_where O PP c1 l1 c2 -> exec_where O PP c2 l2 c3 -> exec_where O PP c1 (l1 ++ l2) c3.
Proof.
  intros H1 H2. induction H2 as [|c2 l2 c3 l c4 H2 IH S HP]; [now rewrite app_nil_r|].
  rewrite app_assoc. econstructor; eauto.
Qed.
Lemma where_one c l c' : step O c l c' -> P (cw c) (cw c') = true -> exec_where O PP c [l] c'.
Proof. intros S H. change [l] with ([] ++ [l]). econstructor; [constructor|exact S|exact H]. Qed.
Lemma run_where_exec n s : forall c c' ls, run_where n s c = true -> sim_run n s c = (c', ls) -> exec_where O PP c ls c'.
Proof.
  induction s as [|s IH]; cbn; intros c c' ls Hw H.
  - injection H as <- <-. constructor.
  - destruct (sim_op n c) as [[c1 l]|] eqn:E; [|injection H as <- <-; constructor].
    destruct (sim_run n s c1) as [c2 ls2] eqn:E2. injection H as <- <-. apply andb_true_iff in Hw as [Hw1 Hw2].
    change (l :: ls2) with ([l] ++ ls2). eapply where_app; [apply where_one; eauto using sim_op_step|eauto].
Qed.
Lemma exec_empty c ls c' : exec O c ls c' -> ls = [] -> c' = c.
Proof. intros H E. destruct H as [|c1 ls c2 l c3 H S]; [reflexivity|]. apply app_eq_nil in E as [_ E]. discriminate. Qed.
Lemma exec_singleton c l c' : exec O c [l] c' -> step O c l c'.
Proof.
  intros H. inversion H as [|c1 ls c2 l2 c3 H1 S E1 E2]. destruct ls as [|a ls]; [|destruct ls; discriminate].
  injection E2 as ->. apply exec_empty in H1; [|reflexivity]. subst. exact S.
Qed.
Lemma cmd_where_exec a c c' ls : cmd_ok a -> cmd_where a c = true -> sim1 O a c = Some (c', ls) -> exec_where O PP c ls c'.
Proof.
  intros Hok Hw H.
  assert (Hone : (forall n s, a <> CRun n s) -> exists l, ls = [l]).
  { intros Hn. destruct a; cbn in H; 
    repeat match type of H with match ?x with _ => _ end = _ => destruct x; try discriminate | (if ?x then _ else _) = _ => destruct x; try discriminate end;
    try (injection H as <- <-; eauto; fail); now destruct (Hn n steps). }
  destruct a; try (cbn [cmd_where] in Hw; rewrite H in Hw; destruct (Hone ltac:(discriminate)) as (l & ->);
    apply where_one; [apply exec_singleton; eapply sim1_exec; eauto|exact Hw]).
  cbn in H, Hw. injection H as H. eapply run_where_exec; eauto.
Qed.
Lemma sim_where l : forall c c' ls, Forall cmd_ok l -> all_where l c = true -> sim O l c = Some (c', ls) -> exec_where O PP c ls c'.
Proof.
  induction l as [|a l IH]; cbn [sim all_where]; intros c c' ls Hok Hw H.
  - injection H as <- <-. constructor.
  - inversion Hok; subst. apply andb_true_iff in Hw as [Hw1 Hw2]. destruct (sim1 O a c) as [[c1 l1]|] eqn:E; [|easy].
    destruct (sim O l c1) as [[c2 l2]|] eqn:E2; [|easy]. injection H as <- <-. eapply where_app; eauto using cmd_where_exec.
Qed.
End W.

(** a test for [sizes_kept] *)
Definition sizes_test (w w' : world) : bool :=
  forallb (fun p => ((count_of p <=? 0) || match find_task (t_id p) w' with Some p' => width_of p' =? width_of p | None => true end)%bool) (w_tasks w).
Lemma sizes_test_sound w w' : sizes_test w w' = true -> sizes_kept w w'.
Proof.
  intros H i p p' E E' Hc. unfold sizes_test in H. rewrite forallb_forall in H.
  assert (Hin : In p (w_tasks w) /\ t_id p = i).
  { unfold find_task in E. apply find_some in E as [H1 H2]. split; [exact H1|]. now apply N.eqb_eq in H2. }
  destruct Hin as [Hin <-]. specialize (H p Hin). rewrite E' in H. apply orb_true_iff in H as [H|H]; [apply Z.leb_le in H; lia|now apply Z.eqb_eq].
Qed.
(** a test for the absence of [leaks] *)
Definition is_created (t : task) : bool := tstate_eqb (t_state t) TCreated.
Definition leak_test (w w' : world) : bool :=
  (forallb (fun t => negb (is_created t && match find_task (t_id t) w' with Some t' => tstate_eqb (t_state t') TPending | None => false end)%bool) (w_tasks w)
   || existsb (fun t => (negb (is_created t) && match find_task (t_id t) w' with Some t' => negb (tstate_eqb (t_state t') (t_state t)) | None => false end && 
                match find_task (t_id t) w with Some u => tstate_eqb (t_state u) (t_state t) | None => false end)%bool) (w_tasks w))%bool.
Lemma leak_test_sound w w' : leak_test w w' = true -> ~ leaks w w'.
Proof.
  intros H (_ & x & ch & Ec & Hs & _ & Ec' & Ho). unfold leak_test in H. apply orb_true_iff in H as [H|H].
  - rewrite forallb_forall in H.
    assert (Hin : In ch (w_tasks w) /\ t_id ch = x).
    { unfold find_task in Ec. apply find_some in Ec as [H1 H2]. split; [exact H1|]. now apply N.eqb_eq in H2. }
    destruct Hin as [Hin <-]. specialize (H ch Hin). unfold is_created in H. rewrite Hs, Ec' in H. discriminate.
  - apply existsb_exists in H as (t & Hin & H). apply andb_true_iff in H as [H H3]. apply andb_true_iff in H as [H1 H2].
    destruct (N.eq_dec (t_id t) x) as [Hx|Hx].
    + rewrite Hx, Ec in H3. unfold is_created in H1. destruct (t_state t), (t_state ch); discriminate.
    + rewrite (Ho _ Hx) in H2. destruct (find_task (t_id t) w) as [u|]; [|discriminate].
      destruct (t_state t), (t_state u); discriminate.
Qed.
