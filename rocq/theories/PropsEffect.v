(** Property theorems: what each step of an execution does to the store; counting of completions, releases and retries
    (C05, C06, C09, C11, C12, C13, C29, C30), over every execution of the interleaving machine (System.v).
    Vocabulary: SpecState.v, SpecComplete.v, SpecEffect.v. *)
From Verif Require Import EffectCount SimWhere PropsState PropsFan PropsComposite.
Open Scope string_scope.
Open Scope list_scope.
Open Scope Z_scope.

(** ** C06: a completion is recorded wholly or not at all *)

(** every step of every execution either records no completion at all, or exactly one, wholly; a transaction that failed
    after releasing a child of an each task leaves only that child changed *)
Theorem C06_every_step : forall O c l c', reachable O c -> step O c l c' ->
  match l with
  | LOp o => quiet O o (cw c) (cw c') \/
             (from_queue QUEUE_COMPLETED o /\ ((exists i, records (cw c) (cw c') i) \/ leaks (cw c) (cw c')))
  | _ => w_tasks (cw c') = w_tasks (cw c) /\ w_jobs (cw c') = w_jobs (cw c)
  end.
Proof.
  intros O c l c' HR S. destruct (effect_step _ _ _ _ HR S) as (_ & _ & H). destruct l; auto.
  destruct H as [H|(_ & Hq & [(i & H & _)|H])]; eauto 10.
Qed.
Print Assumptions C06_every_step.

(** whenever a task becomes COMPLETED, its job or its parent is updated in the same step *)
Theorem C06_task_with_effects : forall O c l c' i t t', reachable O c -> step O c l c' ->
  find_task i (cw c) = Some t -> find_task i (cw c') = Some t' -> t_state t' = TCompleted -> t_state t <> TCompleted ->
  (t_parent t = noid /\ exists j j', find_job (t_job t) (cw c) = Some j /\ find_job (t_job t) (cw c') = Some j' /\ advanced t' j j') \/
  (t_parent t <> noid /\ exists p p' j j', find_task (t_parent t) (cw c) = Some p /\ find_task (t_parent t) (cw c') = Some p' /\
     count_of p' = count_of p + 1 /\
     find_job (t_job t) (cw c) = Some j /\ find_job (t_job t) (cw c') = Some j' /\ context_after t' (j_context j) (j_context j')).
Proof.
  intros O c l c' i t t' HR S E E' Hs Hn. destruct (completed_by_record _ _ _ _ _ _ _ HR S E E' Hs Hn) as (o & _ & _ & Hr & _).
  destruct Hr as (u & u' & Eu & Eu' & _ & Hc). assert (u = t) by congruence. assert (u' = t') by congruence. subst u u'.
  destruct Hc as [(Hp & j & j' & Ej & Ej' & Ha & _)|(Hp & p & p' & j & j' & rel & Ep & Ep' & _ & Hcnt & _ & _ & Ej & Ej' & Hx & _)];
    [left|right]; (split; [exact Hp|]).
  - exists j, j'. auto.
  - exists p, p', j, j'. auto 10.
Qed.
Print Assumptions C06_task_with_effects.

(** conversely: position, progress, context and counts only move together with the task *)
Theorem C06_job_with_task : forall O c l c' i j j', reachable O c -> step O c l c' ->
  find_job i (cw c) = Some j -> find_job i (cw c') = Some j' ->
  (* starting a job and progress reports aside *)
  (forall o, l = LOp o -> ~ from_job_msg JPending o) -> (forall t, l <> LOp (OMsg (MProgress t))) ->
  j_position j' <> j_position j \/ j_progress j' <> j_progress j \/ j_context j' <> j_context j ->
  exists x u u', find_task x (cw c) = Some u /\ find_task x (cw c') = Some u' /\ t_job u = i /\ recorded_row u u' /\
    context_after u' (j_context j) (j_context j') /\
    ((t_parent u = noid /\ advanced u' j j') \/ (t_parent u <> noid /\ j' = j <| j_context := j_context j' |>)).
Proof.
  intros O c l c' i j j' HR S E E' Hns Hnp Hch.
  destruct (effect_cases _ _ _ _ HR S) as [(o & Hq & Hlo)|[(o & x & -> & Hq & Hx & _)|(o & -> & Hq & Hl)]].
  - exfalso. destruct Hlo as [->|[_ HJ]]; [|unfold find_job in *; rewrite HJ in E'; assert (j = j') by congruence; subst; intuition].
    destruct Hq as [_ Hq]. specialize (Hq i). rewrite E, E' in Hq. destruct Hq as (H1 & H2 & H3 & _).
    destruct Hch as [H|[H|H]]; [| |contradiction].
    + destruct H2 as [H2|[H2 _]]; [contradiction|]. eapply Hns; eauto.
    + destruct H3 as [H3|(t & ->)]; [contradiction|]. eapply Hnp; eauto.
  - destruct (records_job _ _ _ _ _ Hx E) as (j2 & E2 & Hc). assert (j2 = j') by congruence. subst j2.
    destruct Hc as [->|(u & u' & Eu & Eu' & Hr & Hj & Hca & Hc)]; [intuition|]. exists x, u, u'. auto 10.
  - exfalso. destruct Hl as (Hl & _). rewrite Hl in E'. assert (j = j') by congruence. subst; intuition.
Qed.
Print Assumptions C06_job_with_task.

Theorem C06_count_with_child : forall O c l c' p t t', reachable O c -> step O c l c' ->
  find_task p (cw c) = Some t -> find_task p (cw c') = Some t' -> count_of t' <> count_of t ->
  count_of t' = count_of t + 1 /\
  exists x u u', find_task x (cw c) = Some u /\ find_task x (cw c') = Some u' /\ t_parent u = p /\ recorded_row u u'.
Proof.
  intros O c l c' p t t' HR S E E' Hn. destruct (count_step _ _ _ _ _ _ HR S E) as (t2 & E2 & Hc). assert (t2 = t') by congruence. subst t2.
  destruct Hc as [[(x & u & (v & v' & Ev & Ev' & Hr & _) & Eu & Hu) Hc]|[_ Hc]]; [|contradiction]. split; [exact Hc|].
  assert (v = u) by congruence. subst v. exists x, u, v'. auto.
Qed.
Print Assumptions C06_count_with_child.

(** ** C05: a completion is counted once *)
Lemma Pb_any w w' : Pb anyD false w w'.
Proof. split; [discriminate|exact (fun _ _ _ _ => I)]. Qed.

(** While a task is not RUNNING, SCHEDULED or SKIPPED, handling completions of it (however many, by however many coordinators,
    interleaved with anything) changes neither position, progress and context of any job, nor any count, result or
    completion time, and completes no task. *)
Theorem C05_refused_completions_change_nothing : forall O i c0 ls c l c',
  reachable O c0 -> (forall o p, In (o, p) (cthreads c0) -> ~ completes o i) ->
  exec_where O (fun w w' => ~ awaits_completion i w /\ ~ awaits_completion i w') c0 ls c ->
  step O c l c' -> ~ awaits_completion i (cw c) -> ~ awaits_completion i (cw c') ->
  forall o, l = LOp o -> completes o i -> quiet O o (cw c) (cw c').
Proof.
  intros O i c0 ls c l c' HR Hno E S Ha Ha' o -> Ho.
  pose proof (reachable_both _ _ HR) as HB. pose proof (refused_start O i _ HB Hno) as HC.
  assert (H : both O anyD false c /\ cfgx (Ki i) (I2 anyD) (Rb false) (Gi O i) c).
  { clear S Ha Ha' Ho. induction E as [|c1 ls c2 l c3 E IH S [P1 P2]]; [auto|]. destruct (IH HR Hno HB HC) as [HB2 HC2].
    destruct (both_step O anyD false _ _ _ HB2 S (Pb_any _ _)) as (HB3 & _).
    destruct (step_Kb O anyD false _ _ _ (proj1 HB2) S (Pb_any _ _)) as [HK _].
    destruct (refused_step O i _ _ _ HC2 S) as (HC3 & _); [split; auto|auto]. }
  destruct H as [HB2 HC2]. destruct (step_Kb O anyD false _ _ _ (proj1 HB2) S (Pb_any _ _)) as [HK _].
  destruct (refused_step O i _ _ _ HC2 S) as (_ & _ & HG); [split; auto|]. apply HG; exact Ho.
Qed.
Print Assumptions C05_refused_completions_change_nothing.

(** what is recorded was awaited *)
Theorem C05_only_awaited_completions_count : forall O c l c' i, reachable O c -> step O c l c' ->
  records (cw c) (cw c') i -> awaits_completion i (cw c).
Proof. intros O c l c' i _ _ (u & u' & Eu & _ & (Ha & _) & _). exists u. auto. Qed.
Print Assumptions C05_only_awaited_completions_count.

(** a finished task stays so (until it is scheduled again), hence is never counted again *)
Theorem C05_counted_once : forall O i c ls c' t, reachable O c -> exec O c ls c' -> find_task i (cw c) = Some t ->
  t_state t = TCompleted \/ t_state t = TFailed \/ t_state t = TCancelled -> ~ pending_handled i (t_job t) ls ->
  tally O (fun w w' => records w w' i) c ls 0 c'.
Proof.
  intros O i c ls c' t HR E Et Hs Hnp. revert Hnp. induction E as [|c1 ls c2 l c3 E IH S]; intros Hnp; [constructor|].
  assert (Hnp1 : ~ pending_handled i (t_job t) ls).
  { intros [(x & Hx & Hy)|(x & Hx & Hy)]; apply Hnp; [left|right]; exists x; rewrite in_app_iff; auto. }
  eapply ta_miss; [apply IH; auto|exact S|]. intros (u & u' & Eu & _ & (Ha & _) & _).
  destruct (task_finished_l O i _ _ _ _ HR E Et Hs Hnp1) as (t2 & E2 & Hc & _). assert (t2 = u) by congruence. subst t2.
  destruct Ha as [Ha|[Ha|Ha]]; rewrite Ha in Hc; destruct Hc as [Hc|Hc]; try discriminate; rewrite <- Hc in Hs; intuition discriminate.
Qed.
Print Assumptions C05_counted_once.

(** ** C09, C12: parallel and each tasks *)

(** the count of a composite task is the number of recordings of its children *)
Theorem C09_C12_count_is_recordings : forall O c ls c' p t, reachable O c -> exec O c ls c' -> find_task p (cw c) = Some t ->
  exists t' n, find_task p (cw c') = Some t' /\ tally O (child_recorded p) c ls n c' /\ count_of t' = count_of t + Z.of_nat n.
Proof. exact count_tally. Qed.
Print Assumptions C09_C12_count_is_recordings.

(** new composite tasks start at zero *)
Theorem C09_C12_count_at_least_completed : forall O c p t, reachable O c -> find_task p (cw c) = Some t ->
  Z.of_nat (completed_children p (cw c)) <= count_of t.
Proof. exact count_bound. Qed.
Print Assumptions C09_C12_count_at_least_completed.

(** a parallel task is not COMPLETED before its count has reached its number of tasks *)
Theorem C09_not_before_last_child : forall O c0 ls c p t pp, initial c0 -> exec O c0 ls c ->
  ~ completion_delivered p ls -> find_task p (cw c) = Some t -> t_parallel t = Some pp -> t_state t = TCompleted ->
  Z.of_nat (length (p_tasks pp)) <= p_completions pp /\ 0 < p_completions pp.
Proof.
  intros O c0 ls c p t pp Hi E Hno Et Hp Hs. apply exec_exec_where in E.
  destruct (filled_by_children O false _ _ _ _ _ Hi E Hno Et Hs) as (t2 & E2 & _ & Hf). assert (t2 = t) by congruence. subst t2.
  unfold count_of, width_of in Hf. rewrite Hp in Hf. cbn in Hf. destruct Hf; auto.
Qed.
Print Assumptions C09_not_before_last_child.

(** an each task likewise (the list evaluated once, or to the same length again) *)
Theorem C12_not_before_last_child : forall O c0 ls c p t e, initial c0 -> exec_where O sizes_kept c0 ls c ->
  ~ completion_delivered p ls -> find_task p (cw c) = Some t -> each_of t = Some e -> t_state t = TCompleted ->
  e_size e <= e_completions e /\ 0 < e_completions e.
Proof.
  intros O c0 ls c p t e Hi E Hno Et Hp Hs.
  assert (E' : exec_where O (Pb anyD true) c0 ls c) by (eapply exec_where_weaken; [|exact E]; intros w w' H; split; [intros _; exact H|exact (fun _ _ _ _ => I)]).
  destruct (filled_by_children O true _ _ _ _ _ Hi E' Hno Et Hs) as (t2 & E2 & _ & Hf). assert (t2 = t) by congruence. subst t2.
  unfold count_of, width_of, each_of in *. destruct (t_parallel t); [discriminate|]. rewrite Hp in Hf. destruct Hf; auto.
Qed.
Print Assumptions C12_not_before_last_child.

(** ** C11: the concurrency limit *)

(** After the fan-out of an each task with concurrency [k > 0] (C10_each_fans_out: [min n k] children released, index [k]), in every
    execution without failed transactions and in which the task is not scheduled again, the number of children
    released further brings the total to [min n (k + completions)]: at most [k] more than have completed. *)
Theorem C11_releases : forall O c ls c' p t e, reachable O c -> exec_where O (fun w w' => ~ leaks w w') c ls c' ->
  ~ pending_handled p (t_job t) ls -> find_task p (cw c) = Some t -> each_of t = Some e ->
  0 < e_concurrency e -> e_index e = e_concurrency e + e_completions e ->
  exists t' e' n, find_task p (cw c') = Some t' /\ each_of t' = Some e' /\ t_job t' = t_job t /\
    e_size e' = e_size e /\ e_concurrency e' = e_concurrency e /\ e_index e' = e_concurrency e' + e_completions e' /\
    tally O (child_released p) c ls n c' /\
    Z.of_nat n = Z.min (e_size e) (e_concurrency e + e_completions e') - Z.min (e_size e) (e_concurrency e + e_completions e).
Proof. exact releases_tally. Qed.
Print Assumptions C11_releases.

(** a child held back leaves that state for PENDING only while a completion is handled, at most one per step *)
Theorem C11_one_release_per_completion : forall O c l c' x y a a' b b', reachable O c -> step O c l c' ->
  find_task x (cw c) = Some a -> t_state a = TCreated -> find_task x (cw c') = Some a' -> t_state a' = TPending ->
  (exists o, l = LOp o /\ from_queue QUEUE_COMPLETED o) /\
  (find_task y (cw c) = Some b -> t_state b = TCreated -> find_task y (cw c') = Some b' -> t_state b' = TPending -> y = x).
Proof.
  intros O c l c' x y a a' b b' HR S Ex Hx Ex' Hx'. pose proof (reachable_inv _ _ HR) as HI.
  destruct (effect_cases _ _ _ _ HR S) as [(o & Hq & Hlo)|[(o & i & -> & Hq & Hi & _)|(o & -> & Hq & Hl)]].
  - exfalso. destruct Hq as [Hq _]. specialize (Hq x). rewrite Ex, Ex' in Hq. destruct Hq as (_&_&_&_&Hn&_). auto.
  - split; [eauto|]. intros Ey Hy Ey' Hy'. destruct Hi as (u & u' & Eu & Eu' & Hr & Hc).
    assert (Hui : t_id u = i) by (now apply tfind_key in Eu).
    assert (Hself : forall z d d', find_task z (cw c) = Some d -> t_state d = TCreated -> find_task z (cw c') = Some d' -> t_state d' = TPending -> z <> i).
    { intros z d d' Ed Hd _ _ ->. assert (d = u) by congruence. subst d. destruct Hr as ([H|[H|H]] & _); congruence. }
    destruct Hc as [(Hn & j & j' & _ & _ & _ & Ho & _)|(Hn & q & q' & j & j' & rel & Eq & Eq' & Hne & _ & _ & Hpp & _ & _ & _ & _ & _ & Hrel & Ho & _)].
    + exfalso. rewrite Ho in Ex'; [congruence|]. rewrite Hui. eapply Hself; eauto.
    + assert (Hz : forall z d d', find_task z (cw c) = Some d -> t_state d = TCreated -> find_task z (cw c') = Some d' -> t_state d' = TPending -> Some z = rel).
      { intros z d d' Ed Hd Ed' Hd'. destruct (N.eq_dec z (t_parent u)) as [->|Hzp].
        { assert (d = q) by congruence. assert (d' = q') by congruence. subst. rewrite Hpp in Hd'. cbn in Hd'. congruence. }
        assert (Hzi : z <> t_id u) by (rewrite Hui; eapply Hself; eauto).
        destruct rel as [r|]; [destruct (N.eq_dec z r) as [->|Hzr]; [reflexivity|]|]; rewrite Ho in Ed' by congruence; congruence. }
      pose proof (Hz _ _ _ Ex Hx Ex' Hx') as H1. pose proof (Hz _ _ _ Ey Hy Ey' Hy') as H2. congruence.
  - split; [eauto|]. intros Ey Hy Ey' Hy'. destruct Hl as (_ & r & ch & _ & _ & _ & _ & Ho).
    destruct (N.eq_dec x r) as [->|Hxr]; [|rewrite Ho in Ex' by auto; congruence].
    destruct (N.eq_dec y r) as [->|Hyr]; [reflexivity|]. rewrite Ho in Ey' by auto. congruence.
Qed.
Print Assumptions C11_one_release_per_completion.

(** ** C13: retries *)

(** along a chain of retries every one records one more attempt, so the chain is no longer than the limit *)
Theorem C13_chain_bounded : forall O c0 ls E c a n x, initial c0 -> retry_log O c0 ls E c -> retry_chain E a (S n) x ->
  exists s t, find_task a (cw c) = Some s /\ find_task x (cw c) = Some t /\
    attempts_of t = attempts_of s + Z.of_nat (S n) /\ 0 <= attempts_of s /\ Z.of_nat (S n) <= limit_of t /\
    t_parent t = t_parent s /\ t_position t = t_position s /\ t_job t = t_job s.
Proof.
  intros O c0 ls E c a n x Hi HL Hc. destruct (chain_attempts _ _ _ _ _ _ _ _ Hi HL Hc) as (s & t & Es & Et & Hat & H1 & H2 & H3).
  destruct (retry_edges _ _ _ _ _ Hi HL) as [HR _]. pose proof (reachable_inv _ _ HR) as HI.
  destruct (inv_row _ _ _ HI Es) as ((Hs & _) & _). destruct (inv_row _ _ _ HI Et) as ((Ht & _) & _).
  exists s, t. unfold attempts_of, limit_of, retry_ok in *. destruct (t_retry s), (t_retry t); ands; auto; lia.
Qed.
Print Assumptions C13_chain_bounded.

(** only a failure creates retries: every new task is a first attempt, or the next attempt of the task the handled message is about *)
Theorem C13_new_attempts : forall O c l c' x t, reachable O c -> step O c l c' ->
  find_task x (cw c) = None -> find_task x (cw c') = Some t ->
  attempts_of t = 0 \/
  exists o u, l = LOp o /\ task_of o = Some (t_id u) /\ find_task (t_id u) (cw c) = Some u /\ attempts_of t = attempts_of u + 1 /\
    t_parent t = t_parent u /\ t_position t = t_position u /\ t_job t = t_job u.
Proof.
  intros O c l c' x t HR S E E'.
  destruct (effect_cases _ _ _ _ HR S) as [(o & Hq & Hlo)|[(o & i & -> & Hq & Hi & _)|(o & -> & Hq & Hl)]].
  - destruct Hlo as [->|[HT _]]; [|unfold find_task in *; rewrite HT in E'; congruence].
    destruct Hq as [Hq _]. specialize (Hq x). rewrite E, E' in Hq. destruct Hq as (_ & _ & [H|(u & H1 & H2 & H3 & H4)]); [auto|].
    right. exists o, u. auto.
  - apply (records_none _ _ _ _ Hi) in E. congruence.
  - apply (leaks_none _ _ _ Hl) in E. congruence.
Qed.
Print Assumptions C13_new_attempts.

(** ** C29: deletion times *)
Theorem C29_auto_delete : forall O i c0 ls c j, initial c0 -> exec O c0 ls c -> (submissions_delivered i ls <= 1)%nat ->
  find_job i (cw c) = Some j ->
  match j_state j with
  | JCompleted => exists n, j_completed j = Some n /\ j_deleteat j = deletion_time O j n
  | _ => j_deleteat j = None
  end.
Proof.
  intros O i c0 ls c j Hi E. revert j. induction E as [|c1 ls c2 l c3 E IH S]; intros j Hsub Ej.
  - destruct Hi as (clk & fs & ->). discriminate Ej.
  - assert (HR : reachable O c2) by (exists c1, ls; auto).
    assert (Hsub1 : (submissions_delivered i ls <= 1)%nat) by (rewrite submissions_app in Hsub; lia).
    destruct (find_job i (cw c2)) as [j0|] eqn:E0.
    2:{ destruct (deletion_new_l _ _ _ _ _ _ HR S E0 Ej) as [H1 H2]. now rewrite H2. }
    specialize (IH Hi j0 Hsub1 eq_refl).
    destruct (deletion_step_l _ _ _ _ _ _ HR S E0) as (j' & E' & Hd). assert (j' = j) by congruence. subst j'.
    destruct (job_step_cases _ _ _ _ _ _ HR S E0) as (j' & E2 & Hjs). assert (j' = j) by congruence. subst j'.
    destruct (jstate_eqb (j_state j0) JCompleted) eqn:Es.
    + assert (Hs : j_state j0 = JCompleted) by (destruct (j_state j0); try discriminate; reflexivity).
      destruct (completed_forever_l O i c1 ls c2 [l] c3 j0 Hi E) as (j2 & Ej2 & Hs2 & Ho); auto.
      { apply exec_one; exact S. }
      assert (j2 = j) by congruence. subst j2. rewrite Hs in IH. rewrite Hs2. unfold job_outcome in Ho. injection Ho as O1 O2 O3 O4 O5.
      destruct IH as (n & H1 & H2). exists n. split; [congruence|]. rewrite O5, H2. unfold deletion_time.
      assert (Ha : j_autodelete j = j_autodelete j0).
      { destruct Hjs as [->|(o & _ & (Hdf & _))]; [reflexivity|]. change (j_autodelete j) with (j_autodelete (jdef j)). now rewrite Hdf. }
      now rewrite Ha.
    + assert (Hn0 : j_state j0 <> JCompleted) by (intros Hc; rewrite Hc in Es; discriminate).
      assert (H0 : j_deleteat j0 = None) by (destruct (j_state j0); auto; now destruct Hn0).
      destruct Hd as [[Hd1 Hd2]|(Hd1 & n & Hd2 & Hd3)].
      * destruct (jstate_eqb (j_state j) JCompleted) eqn:Es2.
        { exfalso. apply Hn0, Hd2. destruct (j_state j); try discriminate; reflexivity. }
        rewrite Hd1, H0. destruct (j_state j); auto. discriminate.
      * rewrite Hd1. exists n. split; [exact Hd2|]. rewrite Hd3, H0.
        assert (Ha : j_autodelete j = j_autodelete j0).
        { destruct Hjs as [->|(o & _ & (Hdf & _))]; [reflexivity|]. change (j_autodelete j) with (j_autodelete (jdef j)). now rewrite Hdf. }
        unfold deletion_time. rewrite Ha. destruct (j_autodelete j0) as [ad|]; [|reflexivity]. destruct (String.eqb (ad_after ad) ""); [reflexivity|].
        destruct (o_dur O (ad_after ad)); reflexivity.
Qed.
Print Assumptions C29_auto_delete.

(** ** C30: results reach the context *)
Theorem C30_context_steps : forall O c l c' i j, reachable O c -> step O c l c' -> find_job i (cw c) = Some j ->
  exists j', find_job i (cw c') = Some j' /\
   (j_context j' = j_context j \/
    exists x u u', find_task x (cw c) = Some u /\ find_task x (cw c') = Some u' /\ t_job u = i /\ recorded_row u u' /\
      context_after u' (j_context j) (j_context j')).
Proof.
  intros O c l c' i j HR S E. destruct (job_step_cases _ _ _ _ _ _ HR S E) as (j' & E' & _). exists j'. split; [exact E'|].
  destruct (effect_cases _ _ _ _ HR S) as [(o & Hq & _)|[(o & x & -> & Hq & Hx & _)|(o & -> & Hq & Hl)]].
  - left. destruct Hq as [_ Hq]. specialize (Hq i). rewrite E, E' in Hq. apply Hq.
  - destruct (records_job _ _ _ _ _ Hx E) as (j2 & E2 & Hc). assert (j2 = j') by congruence. subst j2.
    destruct Hc as [->|(u & u' & Eu & Eu' & Hr & Hj & Hca & _)]; [auto|]. right. exists x, u, u'. auto 10.
  - left. destruct Hl as (Hl & _). rewrite Hl in E'. congruence.
Qed.
Print Assumptions C30_context_steps.
Theorem C30_completion_reaches_context : forall O c l c' i t t', reachable O c -> step O c l c' ->
  find_task i (cw c) = Some t -> find_task i (cw c') = Some t' -> t_state t' = TCompleted -> t_state t <> TCompleted ->
  exists j j', find_job (t_job t) (cw c) = Some j /\ find_job (t_job t) (cw c') = Some j' /\ context_after t' (j_context j) (j_context j').
Proof.
  intros O c l c' i t t' HR S E E' Hs Hn.
  destruct (C06_task_with_effects _ _ _ _ _ _ _ HR S E E' Hs Hn) as [(_ & j & j' & Ej & Ej' & Ha)|(_ & p & p' & j & j' & _ & _ & _ & Ej & Ej' & Ha)];
    exists j, j'; ands; auto. apply Ha.
Qed.
Print Assumptions C30_completion_reaches_context.

