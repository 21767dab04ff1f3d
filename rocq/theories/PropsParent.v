(** Property theorems C09, C12: the completion of the last child completes its parallel or each task, and so on upwards; any other
    completion only counts. One handler alone and without faults, in any reachable state. *)
From Verif Require Import SeqTools SpecComplete SpecEffect InvSched InvMsgs Sim PropsSched PropsComplete PropsState PropsFan PropsComposite.
Open Scope string_scope.
Open Scope list_scope.
Open Scope Z_scope.

(* ------------------------------------------------------------------ *)
(** * Specification *)

(** an each task with a concurrency limit has a further child to release when one completes *)
Definition can_release (w : world) (p : task) : Prop :=
  match each_of p with
  | Some e => 0 < e_concurrency e -> e_index e < e_size e -> exists x, In x (w_tasks w) /\ t_parent x = t_id p /\ t_state x = TCreated
  | None => True
  end.
(** [closes w u ps st]: [u] is the only child its parent waits for, the parent the only child the parent's parent waits for, and so
    on through the tasks [ps]; [st]: the parent of the last of them, which waits for more, or none. *)
Inductive closes (w : world) : task -> list id -> option id -> Prop :=
| closes_top u : t_parent u = noid -> closes w u [] None
| closes_stop u p : t_parent u <> noid -> find_task (t_parent u) w = Some p -> count_of p + 1 < width_of p -> can_release w p ->
    closes w u [] (Some (t_id p))
| closes_up u p ps st : t_parent u <> noid -> find_task (t_parent u) w = Some p -> width_of p <= count_of p + 1 -> acceptable (t_state p) ->
    closes w p ps st -> closes w u (t_id p :: ps) st.
(** the task [p] was completed at [clk] with one more child *)
Definition closed (w w' : world) (clk : time) (i : id) : Prop :=
  exists p p', find_task i w = Some p /\ find_task i w' = Some p' /\ t_state p' = TCompleted /\ t_completed p' = Some clk /\
    count_of p' = count_of p + 1 /\ t_result p' = t_result p.
(** one more child of [p] completed, nothing else *)
Definition counted (w w' : world) (i : id) : Prop :=
  exists p p', find_task i w = Some p /\ find_task i w' = Some p' /\ count_of p' = count_of p + 1 /\
    t_state p' = t_state p /\ t_completed p' = t_completed p /\ t_result p' = t_result p.

(* ------------------------------------------------------------------ *)
(** * Proof *)

Definition done_row (t u : task) : task := u <| t_state := t_state t |> <| t_completed := t_completed t |> <| t_result := t_result t |>.
Definition bump (p : task) : task :=
  match t_parallel p with
  | Some pp => p <| t_parallel := Some (pp <| p_completions := p_completions pp + 1 |>) |>
  | None => match t_each p with
            | Some e => p <| t_each := Some (e <| e_completions := e_completions e + 1 |> <| e_index := e_index e + 1 |>) |>
            | None => p
            end
  end.
Definition same_kin (x x' : task) : Prop := t_id x' = t_id x /\ t_parent x' = t_parent x /\ t_job x' = t_job x /\ composite x' = composite x.
Lemma kin_done t u : same_kin u (done_row t u). Proof. repeat split. Qed.
Lemma kin_bump u : same_kin u (bump u).
Proof. unfold same_kin, bump, composite. destruct (t_parallel u) eqn:E; [cbn; auto|]. destruct (t_each u) eqn:E2; cbn; rewrite ?E, ?E2; cbn; auto. Qed.
Lemma bump_facts p : composite p = true -> count_of (bump p) = count_of p + 1 /\ width_of (bump p) = width_of p /\ t_state (bump p) = t_state p /\
  t_completed (bump p) = t_completed p /\ t_result (bump p) = t_result p /\ t_var (bump p) = t_var p.
Proof.
  unfold count_of, width_of, bump, composite. destruct (t_parallel p) eqn:E; [cbn; auto 10|]. destruct (t_each p) eqn:E2; [|discriminate].
  intros _. cbn. rewrite E. auto 10.
Qed.

Record fit (w : world) (ji : id) (j : job) : Prop := {
  fit_faults : w_faults w = [];
  fit_job : find_job ji w = Some j;
  fit_live : live (j_state j);
  fit_tasks : j_tasks j <> [];
  fit_count : j_taskcount j = Z.of_nat (length (j_tasks j));
  fit_pos : 0 <= j_position j;
  fit_below : ids_below w;
  fit_parent : j_parent j <> noid -> exists p, find_task (j_parent j) w = Some p;
  fit_kin : forall i x, find_task i w = Some x -> t_parent x <> noid ->
     (t_parent x < t_id x)%N /\ exists p, find_task (t_parent x) w = Some p /\ t_job p = t_job x /\ composite p = true
}.
(** rows keep their kin, none is added *)
Definition kept (w w' : world) : Prop :=
  (forall i x, find_task i w = Some x -> exists x', find_task i w' = Some x' /\ same_kin x x') /\
  (forall i x', find_task i w' = Some x' -> exists x, find_task i w = Some x /\ same_kin x x').
Lemma fit_kept w w' ji j j' : fit w ji j -> kept w w' -> w_faults w' = [] -> w_fresh w' = w_fresh w -> find_job ji w' = Some j' ->
  j_state j' = j_state j -> j_tasks j' = j_tasks j -> j_taskcount j' = j_taskcount j -> 0 <= j_position j' -> j_parent j' = j_parent j ->
  map t_id (w_tasks w') = map t_id (w_tasks w) -> fit w' ji j'.
Proof.
  intros F [K1 K2] Hf Hfr Hj E1 E2 E3 Hp E4 Hm. destruct F. constructor; auto; try congruence.
  - intros x Hx. apply (in_map t_id) in Hx. rewrite Hm in Hx. apply in_map_iff in Hx as (y & Hy & Hy2). apply fit_below0 in Hy2. lia.
  - rewrite E4. intros Hn. destruct (fit_parent0 Hn) as (p & Hp2). destruct (K1 _ _ Hp2) as (p' & H' & _). eauto.
  - intros i x' Hx Hn. destruct (K2 _ _ Hx) as (x & Ex & (A & B & C & D)). rewrite B in Hn. destruct (fit_kin0 _ _ Ex Hn) as (G & p & Ep & Gj & Gc).
    destruct (K1 _ _ Ep) as (p' & Ep' & (A' & B' & C' & D')). rewrite A, B, C. split; [exact G|]. exists p'. split; [exact Ep'|]. split; congruence.
Qed.
Lemma kept_refl w w' : w_tasks w' = w_tasks w -> kept w w'.
Proof. intros H. unfold kept, find_task. rewrite H. split; intros i x Hx; exists x; (split; [exact Hx|]); repeat split. Qed.
Lemma kept_trans a b c : kept a b -> kept b c -> kept a c.
Proof.
  intros [A1 A2] [B1 B2]. split; intros i x Hx.
  - destruct (A1 _ _ Hx) as (y & Hy & (Y1 & Y2 & Y3 & Y4)). destruct (B1 _ _ Hy) as (z & Hz & (Z1 & Z2 & Z3 & Z4)). exists z. split; [exact Hz|]. repeat split; congruence.
  - destruct (B2 _ _ Hx) as (y & Hy & (Y1 & Y2 & Y3 & Y4)). destruct (A2 _ _ Hy) as (z & Hz & (Z1 & Z2 & Z3 & Z4)). exists z. split; [exact Hz|]. repeat split; congruence.
Qed.
Lemma kept_put w w' u u' : find_task (t_id u) w = Some u -> same_kin u u' -> w_tasks w' = put_task u' (w_tasks w) -> kept w w'.
Proof.
  intros Hf K Hw. pose proof K as (Hi & _). destruct (put_task_effect w w' u u' Hf Hi Hw) as (H1 & H2 & _). split; intros i x Hx.
  - destruct (N.eq_dec i (t_id u)) as [->|Hn]; [|exists x; rewrite H2 by exact Hn; split; [exact Hx|repeat split]].
    exists u'. split; [exact H1|]. assert (x = u) by congruence. now subst.
  - destruct (N.eq_dec i (t_id u)) as [->|Hn]; [|exists x; rewrite H2 in Hx by exact Hn; split; [exact Hx|repeat split]].
    exists u. split; [exact Hf|]. assert (x = u') by congruence. now subst.
Qed.

(** ** the top of the chain *)
Lemma top_run O t w u j : fit w (t_job t) j -> find_task (t_id t) w = Some u -> acceptable (t_state u) ->
  exists w' j', run (complete_top O t) w = (w', Ok tt) /\ find_task (t_id t) w' = Some (done_row t u) /\
    (forall i x, i <> t_id t -> find_task i w = Some x -> find_task i w' = Some x) /\
    find_job (t_job t) w' = Some j' /\ j_position j' = j_position j + 1.
Proof.
  intros F Hu Ha. destruct F as [Hf Hj Hl Hne Htc Hp0 Hb Hjp _].
  assert (Hcnt : 0 < j_taskcount j) by (rewrite Htc; destruct (j_tasks j); [contradiction|cbn [length]; lia]).
  pose proof (find_job_id _ _ _ Hj) as Hji. pose proof (find_task_id _ _ _ Hu) as Hui.
  set (w1 := w <| w_auto := [] |> <| w_tasks := put_task (done_row t u) (w_tasks w) |> <| w_jobs := put_job (adv t j) (w_jobs w) |>).
  assert (Etx : run (with_tx (a_complete_top t)) w = (w1, Ok tt)) by (rewrite (tx_complete_top t w u j Hf Hu Ha Hj ltac:(lia)); reflexivity).
  assert (Hj1 : find_job (t_job t) w1 = Some (adv t j)).
  { rewrite <- Hji in Hj |- *. apply (put_job_effect w w1 j (adv t j)); auto. }
  assert (HT : find_task (t_id t) w1 = Some (done_row t u) /\ forall i, i <> t_id t -> find_task i w1 = find_task i w).
  { rewrite <- Hui in Hu |- *. destruct (put_task_effect w w1 u (done_row t u)) as (A & B & _); auto. }
  destruct HT as [HT1 HT2].
  assert (Hb1 : ids_below w1).
  { intros x Hx. apply (in_map t_id) in Hx. cbn in Hx. rewrite map_id_put_task in Hx. apply in_map_iff in Hx as (y & Hy & Hy2). apply Hb in Hy2. cbn; lia. }
  unfold complete_top. rewrite run_bind, Etx, run_bind, run_get_job by exact Hf. rewrite Hj1, run_bind, run_now. cbv iota.
  change (j_position (adv t j)) with (j_position j + 1). change (j_tasks (adv t j)) with (j_tasks j). change (w_clock w1) with (w_clock w).
  destruct (j_position j + 1 <=? Z.of_nat (length (j_tasks j))) eqn:E.
  - apply Z.leb_le in E. unfold nth_task. replace (j_position j + 1 - 1) with (j_position j) by lia. destruct (j_position j <? 0) eqn:E2; [apply Z.ltb_lt in E2; lia|].
    destruct (nth_error (j_tasks j) (Z.to_nat (j_position j))) as [def|] eqn:Edef; [|apply nth_error_None in Edef; lia].
    rewrite run_bind, run_new_id.
    set (nx := instantiate O (adv t j) def (j_position j + 1) (w_fresh w1) (w_clock w)).
    assert (Hnx : next_instance O (adv t j) def (w_fresh w1) (w_clock w) nx) by now apply instantiate_next.
    assert (Hnid : t_id nx = w_fresh w1 /\ t_job nx = t_job t).
    { unfold next_instance in Hnx. rewrite <- Hji. destruct (eval_task _ def); rewrite Hnx; cbn; auto. }
    destruct Hnid as [Hn1 Hn2]. rewrite run_bind.
    rewrite (run_create_task nx _ (adv t j)); [|exact Hf| |rewrite Hn2; exact Hj1].
    2:{ rewrite Hn1. change (find_task (w_fresh w1) w1 = None). now apply fresh_not_found. }
    unfold publish_task. rewrite run_publish by exact Hf. eexists. exists (adv t j). split; [reflexivity|].
    assert (Hold : forall i x, find_task i w1 = Some x -> forall h, find_task i (w1 <| w_fresh := N.succ (w_fresh w1) |> <| w_tasks := w_tasks w1 ++ [db_task nx] |> <| w_hist := h |>) = Some x).
    { intros i x Hx h. unfold find_task in *. cbn. cbn in Hx. clear - Hx. induction (put_task (done_row t u) (w_tasks w)) as [|a l IH]; [discriminate|].
      cbn [find app] in *. destruct (N.eqb (t_id a) i); auto. }
    split; [eapply Hold; exact HT1|]. split; [intros i x Hn Hx; eapply Hold; rewrite HT2 by exact Hn; exact Hx|]. split; [exact Hj1|reflexivity].
  - apply Z.leb_gt in E.
    set (ja := (adv t j) <| j_state := JCompleted |> <| j_completed := Some (w_clock w) |>).
    destruct (complete_modify_finished O ja (w_clock w) (adv t j)) as (jx & Em & X1 & X2 & X3); [exact Hl|reflexivity..|].
    set (w2 := w1 <| w_jobs := put_job (finished_row O (adv t j) (w_clock w)) (w_jobs w1) |>).
    assert (Hid : j_id (finished_row O (adv t j) (w_clock w)) = j_id j) by (unfold finished_row; destruct (output_of _ _); reflexivity).
    assert (Eu : run (update_job (j_id ja) (complete_job_modify O ja (w_clock w))) w1 = (w2, Ok jx)).
    { apply (run_update_job _ _ w1 (adv t j)); [exact Hf|change (j_id ja) with (j_id j); rewrite Hji; exact Hj1|exact Em]. }
    assert (Hj2 : find_job (t_job t) w2 = Some (finished_row O (adv t j) (w_clock w))).
    { rewrite <- Hji in Hj1 |- *. change (j_id j) with (j_id (adv t j)) in Hj1 |- *. apply (put_job_effect w1 w2 (adv t j)); auto. }
    assert (Hpos : j_position (finished_row O (adv t j) (w_clock w)) = j_position j + 1) by (unfold finished_row; destruct (output_of _ _); reflexivity).
    change (job_handler O ja) with (complete_job O ja). unfold complete_job. rewrite run_bind, run_now. change (w_clock w1) with (w_clock w). cbv iota.
    rewrite run_bind, Eu. change (j_parent ja) with (j_parent j).
    assert (Hfin : forall h (r : world * outcome unit), r = (w2 <| w_hist := h |>, Ok tt) ->
      exists w' j', r = (w', Ok tt) /\ find_task (t_id t) w' = Some (done_row t u) /\
        (forall i x, i <> t_id t -> find_task i w = Some x -> find_task i w' = Some x) /\ find_job (t_job t) w' = Some j' /\ j_position j' = j_position j + 1).
    { intros h r ->. eexists. eexists. split; [reflexivity|]. split; [exact HT1|]. split; [intros i x Hn Hx; rewrite <- Hx; apply HT2; exact Hn|].
      split; [exact Hj2|exact Hpos]. }
    destruct (has_id (j_parent j)) eqn:Ep.
    + assert (Hp : j_parent j <> noid) by (intros Eq; rewrite Eq in Ep; discriminate).
      destruct (Hjp Hp) as (pt0 & Hpt0).
      assert (Hpt : exists pt, find_task (j_parent j) w2 = Some pt).
      { destruct (N.eq_dec (j_parent j) (t_id t)) as [Eq|Hn]; [rewrite Eq; eauto|]. exists pt0. rewrite <- Hpt0. apply HT2. exact Hn. }
      destruct Hpt as (pt & Hpt). rewrite run_bind, run_get_task, Hpt, run_bind, run_now by exact Hf. cbv iota.
      destruct (jstate_eqb (j_state jx) JFailed); unfold publish_task; rewrite run_publish by exact Hf; eapply Hfin; reflexivity.
    + destruct (jstate_eqb (j_state jx) JFailed); unfold publish_event; rewrite run_publish by exact Hf; eapply Hfin; reflexivity.
Qed.

(** ** one transaction on the way up *)
Definition ctxed (t : task) (j : job) : job := if (nonempty (t_result t) && nonempty (t_var t))%bool then j <| j_context := ctx_put t (j_context j) |> else j.
Lemma act_put_context t w j : w_faults w = [] -> find_job (t_job t) w = Some j ->
  exists w', a_put_context t w = (w', Ok tt) /\ w_tasks w' = w_tasks w /\ w_faults w' = [] /\ w_fresh w' = w_fresh w /\ w_clock w' = w_clock w /\
    find_job (t_job t) w' = Some (ctxed t j).
Proof.
  intros Hf Hj. unfold a_put_context, ctxed. destruct (nonempty (t_result t) && nonempty (t_var t))%bool.
  - erewrite act_update_job; [|exact Hf|exact Hj|reflexivity]. eexists. split; [reflexivity|]. repeat (split; [first [reflexivity|exact Hf]|]).
    pose proof (find_job_id _ _ _ Hj) as Hji. rewrite <- Hji in Hj |- *. set (j2 := j <| j_context := _ |>). exact (proj1 (put_job_effect w (w <| w_jobs := put_job j2 (w_jobs w) |>) j j2 Hj eq_refl eq_refl)).
  - exists w. auto 10.
Qed.
Lemma act_faulty {A} (f : act A) w : w_faults w = [] -> faulty f w = f w.
Proof. intros H. apply faulty_no. exact H. Qed.

Lemma next_created_some w p x : In x (w_tasks w) -> t_parent x = p -> t_state x = TCreated -> exists nx, next_created p w = Some nx.
Proof.
  intros Hin Hp Hs. unfold next_created. destruct (find _ (w_tasks w)) as [nx|] eqn:E; [eauto|].
  pose proof (find_none _ _ E x Hin) as H. cbn in H. rewrite Hp, Hs, N.eqb_refl in H. discriminate.
Qed.

(** the parent's row: counted; possibly a held back child released *)
Lemma act_bump t w p : w_faults w = [] -> NoDup (map t_id (w_tasks w)) -> t_parent t <> noid -> find_task (t_parent t) w = Some p -> composite p = true ->
  (width_of p <= count_of p + 1 \/ can_release w p) -> (forall i x, find_task i w = Some x -> t_parent x <> noid -> (t_parent x < t_id x)%N) ->
  exists w', (match t_parallel p with Some _ => a_update_task (t_parent t) bump_parallel | None => a_bump_each (t_parent t) end) w = (w', Ok (width_of p <=? count_of p + 1)) /\
    w_faults w' = [] /\ w_fresh w' = w_fresh w /\ w_clock w' = w_clock w /\ w_jobs w' = w_jobs w /\ map t_id (w_tasks w') = map t_id (w_tasks w) /\
    kept w w' /\ find_task (t_parent t) w' = Some (bump p) /\
    (forall i x, i <> t_parent t -> find_task i w = Some x -> width_of p <= count_of p + 1 \/ t_state x <> TCreated -> find_task i w' = Some x).
Proof.
  intros Hf Hnd Hn Hp Hc Hrel Hkin. pose proof (find_task_id _ _ _ Hp) as Hpi.
  destruct (t_parallel p) as [pp|] eqn:Epp.
  - assert (Eb : bump_parallel p = Ok (bump p, width_of p <=? count_of p + 1)) by (unfold bump_parallel, bump, width_of, count_of; rewrite Epp; reflexivity).
    erewrite act_update_task; [|exact Hf|exact Hp|exact Eb]. eexists. split; [reflexivity|]. repeat (split; [first [reflexivity|assumption]|]).
    split; [apply map_id_put_task|]. split; [eapply kept_put; [rewrite Hpi; exact Hp|apply kin_bump|reflexivity]|].
    rewrite <- Hpi in Hp |- *. destruct (put_task_effect w (w <| w_tasks := put_task (bump p) (w_tasks w) |>) p (bump p) Hp) as (A & B & _); [apply kin_bump|reflexivity|].
    split; [exact A|]. intros i x Hi Hx _. rewrite B by exact Hi. exact Hx.
  - assert (He : exists e, t_each p = Some e) by (unfold composite in Hc; rewrite Epp in Hc; destruct (t_each p); [eauto|discriminate]).
    destruct He as (e & Ee). unfold a_bump_each. rewrite act_faulty by exact Hf. rewrite Hp, Ee.
    set (rel := (negb (e_size e <=? e_completions e + 1) && (0 <? e_concurrency e) && (e_index e <? e_size e))%bool).
    assert (Ew : (width_of p <=? count_of p + 1) = (e_size e <=? e_completions e + 1)) by (unfold width_of, count_of; rewrite Epp, Ee; reflexivity).
    assert (Ebp : p <| t_each := Some (e <| e_completions := e_completions e + 1 |> <| e_index := e_index e + 1 |>) |> = bump p) by (unfold bump; rewrite Epp, Ee; reflexivity).
    rewrite Ew.
    assert (Hrelease : exists w1, (if rel then a_release_next (t_id p) else aret tt) w = (w1, Ok tt) /\
       w_faults w1 = [] /\ w_fresh w1 = w_fresh w /\ w_clock w1 = w_clock w /\ w_jobs w1 = w_jobs w /\ map t_id (w_tasks w1) = map t_id (w_tasks w) /\
       kept w w1 /\ find_task (t_id p) w1 = Some p /\ (forall i x, find_task i w = Some x -> width_of p <= count_of p + 1 \/ t_state x <> TCreated -> find_task i w1 = Some x)).
    { destruct rel eqn:Er.
      2:{ exists w. split; [reflexivity|]. repeat (split; [auto; fail|]). split; [now apply kept_refl|]. rewrite Hpi. auto. }
      unfold rel in Er. apply andb_true_iff in Er as [Er E3]. apply andb_true_iff in Er as [E1 E2].
      apply negb_true_iff, Z.leb_gt in E1. apply Z.ltb_lt in E2, E3.
      destruct Hrel as [Hrel|Hrel]; [unfold width_of, count_of in Hrel; rewrite Epp, Ee in Hrel; lia|].
      unfold can_release, each_of in Hrel. rewrite Epp, Ee in Hrel. destruct (Hrel E2 E3) as (x & Hx1 & Hx2 & Hx3).
      destruct (next_created_some w (t_id p) x Hx1 Hx2 Hx3) as (nx & Enx).
      assert (Hnx : In nx (w_tasks w) /\ t_parent nx = t_id p /\ t_state nx = TCreated).
      { unfold next_created in Enx. apply find_some in Enx as [A B]. apply andb_true_iff in B as [B C]. apply N.eqb_eq in B. split; [exact A|]. split; [exact B|].
        destruct (t_state nx); try discriminate; reflexivity. }
      destruct Hnx as (N1 & N2 & N3).
      assert (Hfn : find_task (t_id nx) w = Some nx) by (rewrite find_task_t; apply tfind_nodup; auto).
      assert (Hne : t_id nx <> t_id p). { intros Eq. pose proof (Hkin _ _ Hfn ltac:(congruence)) as H. rewrite N2 in H. lia. }
      set (nx' := nx <| t_state := TPending |>). set (w1 := w <| w_tasks := put_task nx' (w_tasks w) |>).
      assert (Er1 : a_release_next (t_id p) w = (w1 <| w_auto := t_id nx :: w_auto w |> <| w_hist := w_hist w ++ [MTask QUEUE_PENDING nx'] |>, Ok tt)).
      { unfold a_release_next, abind, a_get_next. rewrite act_faulty by exact Hf. rewrite Enx.
        erewrite act_update_task; [|exact Hf|exact Hfn|reflexivity]. unfold a_mark_auto, a_publish. rewrite act_faulty by exact Hf. reflexivity. }
      eexists. split; [exact Er1|]. repeat (split; [first [reflexivity|assumption]|]). split; [apply map_id_put_task|].
      split; [apply (kept_put w _ nx nx' Hfn); [repeat split|reflexivity]|].
      destruct (put_task_effect w (w1 <| w_auto := t_id nx :: w_auto w |> <| w_hist := w_hist w ++ [MTask QUEUE_PENDING nx'] |>) nx nx' Hfn) as (A & B & _); [reflexivity|reflexivity|].
      split; [|intros i y Hy [Hs|Hs]; [unfold width_of, count_of in Hs; rewrite Epp, Ee in Hs; lia|]; rewrite B; [exact Hy|]; intros ->; congruence].
      rewrite B by congruence. rewrite Hpi. exact Hp. }
    destruct Hrelease as (w1 & E1 & F1 & F2 & F3 & F4 & F5 & F6 & F7 & F8). rewrite E1, Ebp. eexists. split; [reflexivity|]. repeat (split; [first [reflexivity|assumption]|]).
    split; [etransitivity; [apply map_id_put_task|exact F5]|].
    split; [eapply kept_trans; [exact F6|]; eapply (kept_put w1); [exact F7|apply kin_bump|reflexivity]|].
    destruct (put_task_effect w1 (w1 <| w_tasks := put_task (bump p) (w_tasks w1) |>) p (bump p) F7) as (A & B & _); [apply kin_bump|reflexivity|].
    rewrite <- Hpi. split; [exact A|]. intros i x Hi Hx Hs. rewrite B by exact Hi. auto.
Qed.

Lemma tx_child t w u p j : completion t -> fit w (t_job t) j -> NoDup (map t_id (w_tasks w)) -> find_task (t_id t) w = Some u -> t_parent u = t_parent t -> acceptable (t_state u) ->
  t_parent t <> noid -> find_task (t_parent t) w = Some p -> composite p = true -> (width_of p <= count_of p + 1 \/ can_release w p) ->
  exists w' j', run (match t_parallel p with Some _ => with_tx (a_complete_parallel t) | None => with_tx (a_complete_each t) end) w
      = (w', Ok (width_of p <=? count_of p + 1)) /\
    fit w' (t_job t) j' /\ NoDup (map t_id (w_tasks w')) /\ w_clock w' = w_clock w /\ j_position j' = j_position j /\
    find_task (t_id t) w' = Some (done_row t u) /\ find_task (t_parent t) w' = Some (bump p) /\
    (forall i x, i <> t_id t -> i <> t_parent t -> find_task i w = Some x -> width_of p <= count_of p + 1 \/ t_state x <> TCreated -> find_task i w' = Some x).
Proof.
  intros Hco F Hnd Hu Hpu Ha Hn Hp Hc Hrel. pose proof (find_task_id _ _ _ Hu) as Hui. pose proof (find_task_id _ _ _ Hp) as Hpi.
  assert (Hlt : (t_parent t < t_id t)%N). { destruct (fit_kin _ _ _ F _ _ Hu) as [H _]; [congruence|]. now rewrite Hui, Hpu in H. }
  set (w0 := w <| w_auto := [] |>). set (w1 := w0 <| w_tasks := put_task (done_row t u) (w_tasks w0) |>).
  assert (Hf : w_faults w = []) by apply F.
  assert (E1 : a_update_task (t_id t) (complete_modify t) w0 = (w1, Ok tt)).
  { apply (act_update_task _ _ w0 u); [exact Hf|exact Hu|]. apply complete_modify_acc. exact Ha. }
  assert (K1 : kept w w1). { apply (kept_put w w1 u (done_row t u)); [rewrite Hui; exact Hu|apply kin_done|reflexivity]. }
  destruct (put_task_effect w w1 u (done_row t u)) as (T1 & T2 & T3); [rewrite Hui; exact Hu|reflexivity|reflexivity|]. rewrite Hui in T1, T2.
  assert (Hp1 : find_task (t_parent t) w1 = Some p) by (rewrite T2 by lia; exact Hp).
  assert (F1 : fit w1 (t_job t) j).
  { assert (Hj1 : find_job (t_job t) w1 = Some j). { unfold find_job. change (w_jobs w1) with (w_jobs w). apply (fit_job _ _ _ F). }
    apply (fit_kept w w1 (t_job t) j j F K1 Hf eq_refl Hj1 eq_refl eq_refl eq_refl (fit_pos _ _ _ F) eq_refl T3). }
  assert (Hnd1 : NoDup (map t_id (w_tasks w1))) by (rewrite T3; exact Hnd).
  assert (Hrel1 : width_of p <= count_of p + 1 \/ can_release w1 p).
  { destruct Hrel as [H|H]; [auto|right]. unfold can_release in *. destruct (each_of p) as [e|]; [|exact I]. intros A B. destruct (H A B) as (x & X1 & X2 & X3).
    exists x. split; [|auto]. assert (Hx : find_task (t_id x) w = Some x) by (rewrite find_task_t; apply tfind_nodup; auto).
    assert (Hne : t_id x <> t_id t). { intros Eq. rewrite Eq in Hx. assert (x = u) by congruence. subst x. destruct Ha as [Q|[Q|Q]]; congruence. }
    apply find_task_in with (i := t_id x). rewrite T2 by exact Hne. exact Hx. }
  destruct (act_bump t w1 p) as (w2 & E2 & B1 & B2 & B3 & B4 & B5 & B6 & B7 & B8); auto.
  { intros i x Hx Hxp. apply (fit_kin _ _ _ F1 _ _ Hx Hxp). }
  destruct (act_put_context t w2 j B1) as (w3 & E3 & C1 & C2 & C3 & C4 & C5).
  { unfold find_job. rewrite B4. apply (fit_job _ _ _ F1). }
  assert (Hc3 : forall f, w_tasks (w3 <| w_auto := f |>) = w_tasks w2) by (intros; exact C1).
  exists (w3 <| w_auto := [] |>), (ctxed t j). split.
  - destruct (t_parallel p) eqn:Epp.
    + apply (run_with_tx_ok (a_complete_parallel t)); [|exact C2]. fold w0. unfold a_complete_parallel, abind. rewrite E1, E2, E3. reflexivity.
    + apply (run_with_tx_ok (a_complete_each t)); [|exact C2]. fold w0. unfold a_complete_each, abind. rewrite E1, E2, E3. reflexivity.
  - assert (Fk : kept w1 (w3 <| w_auto := [] |>)).
    { eapply kept_trans; [exact B6|]. apply kept_refl. apply Hc3. }
    split; [|split; [|split; [|split; [|split; [|split]]]]].
    + eapply fit_kept; [exact F1|exact Fk|exact C2|change (w_fresh w3 = w_fresh w1); congruence|exact C5| | | | | |].
      1-3: unfold ctxed; destruct (_ && _)%bool; reflexivity.
      * unfold ctxed; destruct (_ && _)%bool; apply (fit_pos _ _ _ F).
      * unfold ctxed; destruct (_ && _)%bool; reflexivity.
      * rewrite Hc3. exact B5.
    + rewrite Hc3, B5. exact Hnd1.
    + change (w_clock w3 = w_clock w). change (w_clock w) with (w_clock w1). congruence.
    + unfold ctxed; destruct (_ && _)%bool; reflexivity.
    + unfold find_task. rewrite Hc3. apply B8; [lia|exact T1|].
      right. change (t_state t <> TCreated). destruct Hco as [Q|Q]; congruence.
    + unfold find_task. rewrite Hc3. exact B7.
    + intros i x Hi1 Hi2 Hx Hs. unfold find_task. rewrite Hc3. apply B8; auto. change (find_task i w1 = Some x). rewrite T2 by exact Hi1. exact Hx.
Qed.

(** ** the whole way up *)
Lemma closes_transfer w w1 : forall u ps st, closes w u ps st -> forall u', t_parent u' = t_parent u -> (t_parent u <> noid -> (t_parent u < t_id u)%N) ->
  (forall i x, find_task i w = Some x -> t_parent x <> noid -> (t_parent x < t_id x)%N /\ exists p, find_task (t_parent x) w = Some p /\ t_job p = t_job x /\ composite p = true) ->
  (forall i x, (i < t_id u)%N -> find_task i w = Some x -> find_task i w1 = Some x) ->
  (forall x, In x (w_tasks w) -> t_state x = TCreated -> In x (w_tasks w1)) -> closes w1 u' ps st.
Proof.
  induction 1 as [u Hn|u p Hn Hp Hc Hr|u p ps st Hn Hp Hc Ha Hcl IH]; intros u' Hu' Hlt Hkin Hsame Hcr.
  - apply closes_top. congruence.
  - apply closes_stop; [congruence| |exact Hc|]; rewrite ?Hu'.
    + apply Hsame; auto.
    + unfold can_release in *. destruct (each_of p); [|exact I]. intros A B. destruct (Hr A B) as (x & X1 & X2 & X3). exists x. auto.
  - pose proof (find_task_id _ _ _ Hp) as Hpi. apply closes_up; [congruence| |exact Hc|exact Ha|]; rewrite ?Hu'.
    + apply Hsame; auto.
    + apply IH; auto.
      * intros Hq. apply (Hkin _ _ Hp Hq).
      * intros i x Hi Hx. apply Hsame; auto. specialize (Hlt Hn). lia.
Qed.
Lemma closes_in w u ps st : closes w u ps st -> (forall i, In i ps \/ st = Some i -> exists x, find_task i w = Some x).
Proof.
  induction 1 as [u Hn|u p Hn Hp Hc Hr|u p ps st Hn Hp Hc Ha Hcl IH]; intros i Hi; pose proof Hp as Hp' || idtac.
  - destruct Hi as [[]|]; discriminate.
  - destruct Hi as [[]|Hi]. injection Hi as <-. pose proof (find_task_id _ _ _ Hp) as ->. eauto.
  - destruct Hi as [[<-|Hi]|Hi]; [pose proof (find_task_id _ _ _ Hp) as ->; eauto|apply IH; auto..].
Qed.
Lemma climb O : forall fuel t w u j ps st, completion t -> fit w (t_job t) j -> NoDup (map t_id (w_tasks w)) ->
  find_task (t_id t) w = Some u -> t_parent u = t_parent t -> t_job u = t_job t -> acceptable (t_state u) -> closes w u ps st -> (length ps < fuel)%nat ->
  exists w' j', run (complete_task O fuel t) w = (w', Ok tt) /\ find_task (t_id t) w' = Some (done_row t u) /\
    Forall (closed w w' (w_clock w)) ps /\ (forall s, st = Some s -> counted w w' s) /\
    (forall i x, i <> t_id t -> ~ In i ps -> st <> Some i -> find_task i w = Some x -> t_state x <> TCreated -> find_task i w' = Some x) /\
    Forall (fun i => (i < t_id t)%N) ps /\ (forall s, st = Some s -> (s < t_id t)%N /\ Forall (fun i => (s < i)%N) ps) /\
    find_job (t_job t) w' = Some j' /\ j_position j' = j_position j + (if st then 0 else 1).
Proof.
  induction fuel as [|fuel IH]; intros t w u j ps st Hco F Hnd Hu Hpu Hju Ha Hcl Hlen; [lia|].
  pose proof (find_task_id _ _ _ Hu) as Hui.
  inversion Hcl as [u0 Hn|u0 p Hn Hp Hcnt Hrel|u0 p ps0 st0 Hn Hp Hcnt Hpa Hcl2]; subst.
  - destruct (top_run O t w u j F Hu Ha) as (w' & j' & R & T1 & T2 & J1 & J2).
    exists w', j'. cbn [complete_task]. rewrite <- Hpu, Hn. cbn [has_id]. split; [exact R|]. split; [exact T1|]. split; [constructor|].
    split; [discriminate|]. split; [auto|]. split; [constructor|]. split; [discriminate|]. split; [exact J1|lia].
  - pose proof (find_task_id _ _ _ Hp) as Hpi.
    destruct (fit_kin _ _ _ F _ _ Hu Hn) as (Hlt & p0 & Hp0 & Hjp & Hc). assert (p0 = p) by congruence. subst p0.
    rewrite Hpu in *.
    destruct (tx_child t w u p j Hco F Hnd Hu Hpu Ha Hn Hp Hc (or_intror Hrel)) as (w' & j' & R & F' & N' & CK & PJ & T1 & T2 & T3).
    destruct (bump_facts p Hc) as (G1 & G2 & G3 & G4 & G5 & _).
    exists w', j'. cbn [complete_task]. assert (Hh : has_id (t_parent t) = true) by (unfold has_id, is_noid; apply negb_true_iff, N.eqb_neq; exact Hn).
    rewrite Hh, run_bind, run_get_task by apply F. rewrite Hp, run_bind, R.
    destruct (width_of p <=? count_of p + 1) eqn:E; [apply Z.leb_le in E; lia|]. split; [reflexivity|]. split; [exact T1|]. split; [constructor|].
    split; [intros s Hs; injection Hs as <-; exists p, (bump p); rewrite Hpi; ands; auto|].
    split; [intros i x H1 _ H2 H3 H4; apply T3; auto; congruence|]. split; [constructor|]. split; [intros s Hs; injection Hs as <-; split; [lia|constructor]|].
    split; [apply F'|]. lia.
  - pose proof (find_task_id _ _ _ Hp) as Hpi.
    destruct (fit_kin _ _ _ F _ _ Hu Hn) as (Hlt & p0 & Hp0 & Hjp & Hc). assert (p0 = p) by congruence. subst p0.
    rewrite Hpu in *.
    destruct (tx_child t w u p j Hco F Hnd Hu Hpu Ha Hn Hp Hc (or_introl Hcnt)) as (w1 & j1 & R & F' & N' & CK & PJ & T1 & T2 & T3).
    destruct (bump_facts p Hc) as (G1 & G2 & G3 & G4 & G5 & _). destruct (kin_bump p) as (K1 & K2 & K3 & K4).
    set (t' := (bump p) <| t_state := TCompleted |> <| t_completed := Some (w_clock w1) |>).
    assert (Hcl' : closes w1 (bump p) ps0 st).
    { eapply closes_transfer; [exact Hcl2|exact K2|intros Hq; apply (fit_kin _ _ _ F _ _ Hp Hq)|apply (fit_kin _ _ _ F)| |].
      - intros i x Hi Hx. apply T3; auto; lia.
      - intros x Hx Hs. assert (Ex : find_task (t_id x) w = Some x) by (rewrite find_task_t; apply tfind_nodup; auto).
        apply find_task_in with (i := t_id x). apply T3; auto; intros Eq; rewrite Eq in Ex.
        + assert (x = u) by congruence. subst x. destruct Ha as [Q|[Q|Q]]; congruence.
        + assert (x = p) by congruence. subst x. destruct Hpa as [Q|[Q|Q]]; congruence. }
    destruct (IH t' w1 (bump p) j1 ps0 st) as (w' & j' & R2 & S1 & S2 & S3 & S4 & S5 & S6 & S7 & S8).
    { left; reflexivity. }
    { change (t_job t') with (t_job (bump p)). rewrite K3, Hjp, Hju. exact F'. }
    { exact N'. }
    { change (t_id t') with (t_id (bump p)). rewrite K1, Hpi. exact T2. }
    { reflexivity. } { reflexivity. } { rewrite G3. exact Hpa. } { exact Hcl'. } { cbn in Hlen. lia. }
    change (t_id t') with (t_id (bump p)) in *. change (t_job t') with (t_job (bump p)) in *. rewrite K1, Hpi in *. rewrite K3, Hjp, Hju in *. rewrite CK in *.
    exists w', j'. cbn [complete_task]. assert (Hh : has_id (t_parent t) = true) by (unfold has_id, is_noid; apply negb_true_iff, N.eqb_neq; exact Hn).
    rewrite Hh, run_bind, run_get_task by apply F. rewrite Hp, run_bind, R. apply Z.leb_le in Hcnt. rewrite Hcnt. cbv iota.
    rewrite run_bind, run_get_task by apply F'. rewrite T2, run_bind, run_now. cbv iota. fold t'. split; [exact R2|].
    assert (Hps : Forall (fun i => (i < t_id t)%N) ps0) by (eapply Forall_impl; [|exact S5]; cbn; intros; lia).
    split; [|split; [|split; [|split; [|split; [|split; [|split; [exact S7|lia]]]]]]].
    + apply S4; [lia| | |exact T1|].
      * intros Hin. rewrite Forall_forall in S5. specialize (S5 _ Hin). cbn in S5. lia.
      * intros Hs. destruct (S6 _ Hs) as [S6a _]. lia.
      * change (t_state t <> TCreated). destruct Hco as [Q|Q]; congruence.
    + constructor.
      * exists p, (done_row t' (bump p)). split; [exact Hp|]. split; [exact S1|]. split; [reflexivity|]. split; [change (Some (w_clock w1) = Some (w_clock w)); congruence|].
        split; [exact G1|exact G5].
      * rewrite Forall_forall in S2, S5 |- *. intros i Hi. destruct (S2 _ Hi) as (q & q' & Q1 & Q2 & Q3). specialize (S5 _ Hi). cbn in S5.
        destruct (closes_in _ _ _ _ Hcl2 i (or_introl Hi)) as (x & Hx). assert (x = q) by (specialize (T3 i x ltac:(lia) ltac:(lia) Hx (or_introl (proj1 (Z.leb_le _ _) Hcnt))); congruence).
        subst x. exists q, q'. auto.
    + intros s Hs. destruct (S3 _ Hs) as (q & q' & Q1 & Q2 & Q3). destruct (S6 _ Hs) as [S6a _].
      destruct (closes_in _ _ _ _ Hcl2 s (or_intror Hs)) as (x & Hx). assert (x = q) by (specialize (T3 s x ltac:(lia) ltac:(lia) Hx (or_introl (proj1 (Z.leb_le _ _) Hcnt))); congruence).
      subst x. exists q, q'. auto.
    + intros i x H1 H2 H3 H4 H5. cbn in H2. apply S4; auto.
    + constructor; [lia|exact Hps].
    + intros s Hs. destruct (S6 _ Hs) as [S6a S6b]. split; [lia|]. constructor; [lia|exact S6b].
Qed.

(* ------------------------------------------------------------------ *)
(** * Theorem *)

(** Handling the completion of a task completes exactly the parallel and each tasks that waited for nothing else, at any depth of nesting;
    the next one up counts one more child and stays as it is; no other task that was started changes. *)
Theorem C09_C12_last_child_completes_parents : forall O c fuel t u j ps st,
  reachable O c -> w_faults (cw c) = [] -> In (MTask QUEUE_COMPLETED t) (w_hist (cw c)) -> completion t ->
  find_task (t_id t) (cw c) = Some u -> acceptable (t_state u) ->
  find_job (t_job t) (cw c) = Some j -> live (j_state j) -> j_tasks j <> [] ->
  closes (cw c) u ps st -> (length ps < fuel)%nat ->
  exists w' j',
    run (deliver O fuel (MTask QUEUE_COMPLETED t)) (cw c) = (w', Ok tt) /\
    find_task (t_id t) w' = Some (completed_row (w_clock (cw c)) t u) /\
    Forall (closed (cw c) w' (w_clock (cw c))) ps /\
    (forall s, st = Some s -> counted (cw c) w' s) /\
    (forall i x, i <> t_id t -> ~ In i ps -> st <> Some i -> find_task i (cw c) = Some x -> t_state x <> TCreated -> find_task i w' = Some x) /\
    find_job (t_job t) w' = Some j' /\ j_position j' = j_position j + (if st then 0 else 1).
Proof.
  intros O c fuel t u j ps st HR Hf Hin Hco Hu Ha Hj Hl Hne Hcl Hlen. pose proof (reachable_inv _ _ HR) as HI.
  destruct (inv_hist _ HI _ Hin) as (_ & u0 & Hu0 & Hab). rewrite Hu in Hu0. injection Hu0 as <-. destruct Hab as (A1 & A2 & A3 & _).
  destruct (inv_jobs _ HI j (find_job_in _ _ _ Hj)) as [(_ & _ & B & _ & _ & C) Hjp0].
  assert (Hjp : j_parent j <> noid -> exists p, find_task (j_parent j) (cw c) = Some p) by (intros Hx; destruct (Hjp0 Hx) as (p & Hx1 & _); eauto).
  assert (F : fit (cw c) (t_job t) j).
  { constructor; auto; [now apply Inv_ids_below|]. intros i x Hx Hn. destruct (inv_tasks _ HI x (find_task_in _ _ _ Hx)) as (_ & _ & Hk & _). apply Hk. exact Hn. }
  set (t1 := t <| t_completed := Some (w_clock (cw c)) |>).
  destruct (climb O fuel t1 (cw c) u j ps st) as (w' & j' & R & S1 & S2 & S3 & S4 & _ & _ & S7 & S8); auto.
  { apply (inv_task_ids _ HI). }
  exists w', j'. split; [|split; [exact S1|]; split; [exact S2|]; split; [exact S3|]; split; [exact S4|]; split; [exact S7|exact S8]].
  rewrite deliver_completed. unfold task_wrapper. rewrite run_catch. unfold completed_handler. rewrite run_bind, run_now. cbv iota.
  replace (match t_state t with TCompleted | TSkipped => with_msg (t <| t_completed := Some (w_clock (cw c)) |>) (complete_task O fuel (t <| t_completed := Some (w_clock (cw c)) |>)) | _ => fail "invalid completion state" end)
    with (with_msg t1 (complete_task O fuel t1)) by (destruct Hco as [E|E]; rewrite E; reflexivity).
  rewrite run_with_msg, R. reflexivity.
Qed.
Print Assumptions C09_C12_last_child_completes_parents.

(** ** Non-vacuity: a parallel task whose second child is an each task over three elements, one at a time *)
Ltac ranr := (apply sim_c_reachable; [cmds|vm_compute; reflexivity]).
Lemma closes_up_i w u i p ps st : i = t_parent u -> i <> noid -> find_task i w = Some p -> width_of p <= count_of p + 1 -> acceptable (t_state p) ->
  closes w p ps st -> closes w u (i :: ps) st.
Proof. intros -> Hn Hp Hw Ha Hc. pose proof (find_task_id _ _ _ Hp) as Hi. rewrite <- Hi at 1. apply closes_up; auto. Qed.
Definition nest_job := demo_job [parallel_task [simple "x"; each_task 1]].
Definition nest_start : list cmd :=
  [CApi (OSubmit nest_job); CRun 0 100; CDeliver 0; CRun 1 100; CDeliver 1; CRun 2 100; CDeliver 2; CRun 3 100; CComplete 3 "r"; CDeliver 5; CRun 4 100;
   CDeliver 4; CRun 5 100; CComplete 6 "r"].
Definition nest_more : list cmd := [CDeliver 7; CRun 6 100; CDeliver 8; CRun 7 100; CComplete 9 "r"; CDeliver 10; CRun 8 100; CDeliver 11; CRun 9 100; CComplete 12 "r"].
Example C12_nonvacuous_not_last : exists c t u j s, reachable O0 c /\ w_faults (cw c) = [] /\ In (MTask QUEUE_COMPLETED t) (w_hist (cw c)) /\ completion t /\
  find_task (t_id t) (cw c) = Some u /\ acceptable (t_state u) /\ find_job (t_job t) (cw c) = Some j /\ live (j_state j) /\ j_tasks j <> [] /\
  closes (cw c) u [] (Some s).
Proof.
  exists (sim_c O0 start nest_start). do 4 eexists. split; [ranr|]. split; [vm_compute; reflexivity|].
  split; [vm_compute; do 7 right; left; reflexivity|]. split; [left; reflexivity|]. split; [vm_compute; reflexivity|]. split; [right; left; reflexivity|].
  split; [vm_compute; reflexivity|]. split; [left; reflexivity|]. split; [discriminate|].
  eapply closes_stop; [discriminate|vm_compute; reflexivity|vm_compute; reflexivity|].
  vm_compute. intros _ _. eexists. split; [do 4 right; left; reflexivity|]. split; reflexivity.
Qed.

Example C09_C12_nonvacuous_last : exists c t u j, reachable O0 c /\ w_faults (cw c) = [] /\ In (MTask QUEUE_COMPLETED t) (w_hist (cw c)) /\ completion t /\
  find_task (t_id t) (cw c) = Some u /\ acceptable (t_state u) /\ find_job (t_job t) (cw c) = Some j /\ live (j_state j) /\ j_tasks j <> [] /\
  closes (cw c) u [4%N; 2%N] None.
Proof.
  exists (sim_c O0 start (nest_start ++ nest_more)). do 3 eexists. split; [ranr|]. split; [vm_compute; reflexivity|].
  split; [vm_compute; do 13 right; left; reflexivity|]. split; [left; reflexivity|]. split; [vm_compute; reflexivity|]. split; [right; left; reflexivity|].
  split; [vm_compute; reflexivity|]. split; [left; reflexivity|]. split; [discriminate|].
  eapply closes_up_i; [reflexivity|discriminate|vm_compute; reflexivity|vm_compute; discriminate|left; reflexivity|].
  eapply closes_up_i; [reflexivity|discriminate|vm_compute; reflexivity|vm_compute; discriminate|left; reflexivity|].
  apply closes_top. reflexivity.
Qed.
