(** Trace-level consequences of the invariant: C01-C04, C13, C25, C57, C60. *)
From Verif Require Export PlainOps.
Open Scope string_scope.
Open Scope list_scope.
Open Scope Z_scope.

Section Traces.
Variable O : oracle.
Notation step := (step O).
Notation exec := (exec O).
Notation reachable := (reachable O).

Lemma exec_reach c0 ls c : initial c0 -> exec c0 ls c -> reachable c.
Proof. intros; exists c0, ls; auto. Qed.

(** ** One step *)
Lemma job_step_cases c l c' i j : reachable c -> step c l c' -> find_job i (cw c) = Some j ->
  exists j', find_job i (cw c') = Some j' /\ (j' = j \/ exists o, l = LOp o /\ job_step o j j').
Proof.
  intros HR S E. pose proof (reachable_guar _ _ _ _ HR S) as H.
  destruct l as [m|o|o|o| |m]; cbn in H; try (destruct H as [_ H]; unfold find_job in *; rewrite H; eauto).
  destruct H as [_ H]. specialize (H i). rewrite find_job_t in *. rewrite E in H.
  destruct (tfind j_id i (w_jobs (cw c'))) as [j'|] eqn:E'; [|easy]. eauto 8.
Qed.
Lemma task_step_cases c l c' i t : reachable c -> step c l c' -> find_task i (cw c) = Some t ->
  exists t', find_task i (cw c') = Some t' /\ (t' = t \/ exists o, l = LOp o /\ task_step o t t').
Proof.
  intros HR S E. pose proof (reachable_guar _ _ _ _ HR S) as H.
  destruct l as [m|o|o|o| |m]; cbn in H; try (destruct H as [H _]; unfold find_task in *; rewrite H; eauto).
  destruct H as [H _]. specialize (H i). rewrite find_task_t in *. rewrite E in H.
  destruct (tfind t_id i (w_tasks (cw c'))) as [t'|] eqn:E'; [|easy]. eauto 8.
Qed.
Lemma job_created c l c' i j' : reachable c -> step c l c' -> find_job i (cw c) = None -> find_job i (cw c') = Some j' ->
  exists o, l = LOp o /\ job_new j'.
Proof.
  intros HR S E E'. pose proof (reachable_guar _ _ _ _ HR S) as H.
  destruct l as [m|o|o|o| |m]; cbn in H; try (destruct H as [_ H]; unfold find_job in *; rewrite H in E'; congruence).
  destruct H as [_ H]. specialize (H i). rewrite find_job_t in *. rewrite E, E' in H. eauto.
Qed.
Lemma task_created c l c' i t' : reachable c -> step c l c' -> find_task i (cw c) = None -> find_task i (cw c') = Some t' ->
  exists o, l = LOp o /\ task_new o t'.
Proof.
  intros HR S E E'. pose proof (reachable_guar _ _ _ _ HR S) as H.
  destruct l as [m|o|o|o| |m]; cbn in H; try (destruct H as [H _]; unfold find_task in *; rewrite H in E'; congruence).
  destruct H as [H _]. specialize (H i). rewrite find_task_t in *. rewrite E, E' in H. eauto.
Qed.
Lemma find_job_id i w j : find_job i w = Some j -> j_id j = i.
Proof. rewrite find_job_t. apply tfind_key. Qed.
Lemma find_task_id i w t : find_task i w = Some t -> t_id t = i.
Proof. rewrite find_task_t. apply tfind_key. Qed.

Lemma job_state_machine_l c l c' i j : reachable c -> step c l c' -> find_job i (cw c) = Some j ->
  exists j', find_job i (cw c') = Some j' /\
    (j_state j' = j_state j \/ exists o, l = LOp o /\ job_of o = i /\ job_edge o (j_state j) (j_state j')).
Proof.
  intros HR S E. destruct (job_step_cases _ _ _ _ _ HR S E) as (j' & E' & [Hx|(o & -> & H)]); exists j'; (split; [exact E'|]); [left; now subst|].
  destruct H as (_ & Hoth & [Hs|He] & _); auto.
  destruct (N.eq_dec (j_id j) (job_of o)) as [Hi|Hn].
  - right. exists o. repeat split; auto. rewrite <- Hi. eapply find_job_id; eauto.
  - left. now rewrite (Hoth Hn).
Qed.

Lemma task_state_machine_l c l c' i t : reachable c -> step c l c' -> find_task i (cw c) = Some t ->
  exists t', find_task i (cw c') = Some t' /\
    (t_state t' = t_state t \/ exists o, l = LOp o /\ job_of o = t_job t /\ task_edge o i (t_state t) (t_state t')).
Proof.
  intros HR S E. destruct (task_step_cases _ _ _ _ _ HR S E) as (t' & E' & [Hx|(o & -> & H)]); exists t'; (split; [exact E'|]); [left; now subst|].
  destruct H as (_ & Hoth & [Hs|He] & _); auto.
  destruct (N.eq_dec (t_job t) (job_of o)) as [Hi|Hn].
  - right. exists o. repeat split; auto. now rewrite <- (find_task_id _ _ _ E).
  - left. now rewrite (Hoth Hn).
Qed.

(** ** Starting a job at most once *)
Fixpoint budget {A} (p : prog A) (n : nat) : Prop :=
  match p with
  | Done _ => True
  | Step f k => forall w, (nostart w (fst (f w)) /\ budget (k (snd (f w))) n) \/
                          (exists n', n = S n' /\ budget (k (snd (f w))) n')
  end.
Lemma budget_ops {A} (p : prog A) n : ops nostart p -> budget p n.
Proof.
  induction p as [r|B f k IH]; cbn [budget]; [auto|]. intros H w. left. destruct (ops_step _ _ _ w H) as [? ?]. auto.
Qed.
Lemma budget_bind_ops {A B} (p : prog A) (f : A -> prog B) n :
  ops nostart p -> (forall a, budget (f a) n) -> budget (bind p f) n.
Proof.
  intros Hp Hf. induction p as [r|C g k IH]; cbn [bind].
  - destruct r; cbn [budget]; auto.
  - cbn [budget]. intros w. left. destruct (ops_step _ _ _ w Hp) as [? ?]. auto.
Qed.
Lemma budget_catch {A} (p : prog A) h n : budget p n -> (forall e m n, budget (h e m) n) -> budget (catch p h) n.
Proof.
  intros Hp Hh. revert n Hp. induction p as [r|C g k IH]; cbn [catch]; intros n Hp.
  - destruct r; cbn [budget]; auto.
  - cbn [budget] in *. intros w. destruct (Hp w) as [[? ?]|(n' & -> & ?)]; [left|right]; eauto.
Qed.
Lemma ops_ns {A} (p : prog A) : ops plain p -> ops nostart p.
Proof. apply ops_weaken. intros ? ? [? _]; auto. Qed.

Lemma budget_start j : j_state j = JPending -> budget (job_wrapper O (job_handler O) j) 1.
Proof.
  intros Hs. unfold job_wrapper. apply budget_catch.
  - unfold job_handler. rewrite Hs. unfold start_job. destruct (j_tasks j) as [|t0 ts]; [exact I|].
    apply budget_bind_ops; [apply ops_ns, ops_op; intros; now apply plain_refl|intros n].
    apply budget_bind_ops; [apply ops_ns, ops_op; intros; now apply plain_refl|intros i].
    apply budget_bind_ops; [apply ops_ns, ops_op, plain_create_task|intros []].
    apply budget_bind_ops; [apply ops_ns, ops_op; intros; now apply plain_refl|intros n2].
    cbn [update_job op bind budget]. intros w. right. exists 0%nat. split; [reflexivity|].
    destruct (snd _) as [[]|e m| |]; try exact I.
    apply budget_ops, ops_ns. destruct (tstate_eqb _ _).
    + apply ops_bind; [apply ops_op; intros; now apply plain_refl|intros n3]. apply plain_fail_job.
    + apply plain_pending.
  - intros e m n. apply budget_ops, ops_ns. apply ops_bind; [apply ops_op; intros; now apply plain_refl|intros n3].
    apply plain_job_handler. discriminate.
Qed.

Definition starts_job (i : id) (o : origin) : bool :=
  match o with OMsg (MJob j) => (N.eqb (j_id j) i && jstate_eqb (j_state j) JPending)%bool | _ => false end.
Definition th_budget (i : id) (th : origin * prog unit) (n : nat) : Prop :=
  if starts_job i (fst th) then budget (snd th) n else n = 0%nat.
Fixpoint sum (l : list nat) : nat := match l with [] => 0%nat | x :: r => (x + sum r)%nat end.
Lemma sum_app a b : sum (a ++ b) = (sum a + sum b)%nat.
Proof. induction a as [|x a IH]; cbn; [reflexivity|]. rewrite IH. lia. Qed.

(** [S] start updates of job [i] so far, [D] deliveries of its submission. *)
Definition starts_inv (i : id) (St D : nat) (c : config) : Prop :=
  (exists ns, Forall2 (th_budget i) (cthreads c) ns /\ (sum ns + St <= D)%nat) /\
  (forall j, find_job i (cw c) = Some j -> j_state j <> JPending -> (1 <= St)%nat).

Lemma from_job_msg_start o i : from_job_msg JPending o -> job_of o = i -> starts_job i o = true.
Proof.
  intros (j & -> & Hs) Hi. cbn in *. subst i. now rewrite N.eqb_refl, Hs.
Qed.
Lemma starts_job_inv o i : starts_job i o = true -> from_job_msg JPending o /\ job_of o = i.
Proof.
  destruct o as [[| j | | |]| | |]; cbn; try discriminate. rewrite andb_true_iff, N.eqb_eq. intros [<- H].
  split; [|reflexivity]. exists j. split; [reflexivity|]. now destruct (j_state j).
Qed.
Lemma edge_from_pending o s : job_edge o JPending s -> s <> JPending -> from_job_msg JPending o.
Proof.
  intros H Hs. inversion H; subst; auto; repeat match goal with H : live _ |- _ => destruct H | H : _ \/ _ |- _ => destruct H end; try congruence.
Qed.

Definition start_delivery (i : id) (l : label) : nat := if is_job_delivery i JPending l then 1%nat else 0%nat.

(** the step resets job [i] *)
Definition reset (j j' : job) : Prop := ~ jr j j'.

Lemma starts_step i St D c l c' : reachable c -> step c l c' -> starts_inv i St D c ->
  exists St', starts_inv i St' (D + start_delivery i l) c' /\
    ((St' = St /\ forall j, find_job i (cw c) = Some j -> exists j', find_job i (cw c') = Some j' /\ jr j j') \/ St' = S St).
Proof.
  intros HR S [(ns & HF & Hsum) Hst].
  assert (Hq : (w_tasks (cw c') = w_tasks (cw c) /\ w_jobs (cw c') = w_jobs (cw c)) ->
    forall j, find_job i (cw c) = Some j -> exists j', find_job i (cw c') = Some j' /\ jr j j').
  { intros [_ E] j Ej. exists j. unfold find_job in *. rewrite E. split; [exact Ej|apply jr_refl]. }
  pose proof (reachable_guar _ _ _ _ HR S) as HG.
  destruct S; cbn [cw cthreads] in *.
  - exists St. split; [|left; auto]. split; [|exact Hst].
    exists (ns ++ [if starts_job i (OMsg m) then 1%nat else 0%nat]). split.
    + apply Forall2_app; [exact HF|]. constructor; [|constructor]. unfold th_budget; cbn [fst snd].
      destruct (starts_job i (OMsg m)) eqn:Es; [|reflexivity].
      destruct m as [|j| | |]; cbn in Es; try discriminate. apply andb_true_iff in Es as [_ Es].
      unfold deliver. apply budget_start. now destruct (j_state j).
    + rewrite sum_app. cbn. unfold start_delivery, is_job_delivery, starts_job. destruct m as [|j| | |]; cbn; try lia.
  - exists St. split; [|left; auto]. split; [|exact Hst].
    exists (ns ++ [0%nat]). split.
    + apply Forall2_app; [exact HF|]. constructor; [|constructor]. unfold th_budget; cbn [fst snd].
      destruct o; cbn in *; auto; discriminate.
    + rewrite sum_app. cbn. lia.
  - apply Forall2_app_inv_l in HF as (n1 & n2 & HF1 & HF2 & ->).
    inversion HF2 as [|x n ths ns2 Hb HF3]; subst. rewrite sum_app in Hsum. cbn in Hsum.
    unfold start_delivery. cbn. rewrite Nat.add_0_r.
    destruct (starts_job i o) eqn:Es.
    2:{ (* another thread *)
      assert (Hjr : forall j, find_job i w = Some j -> exists j', find_job i w' = Some j' /\ jr j j' /\ (j_state j = JPending -> j_state j' = JPending)).
      { intros j Ej. destruct HG as [_ HG]. specialize (HG i). rewrite find_job_t in *. rewrite Ej in HG.
        destruct (tfind j_id i (w_jobs w')) as [j'|]; [|easy]. exists j'. split; [reflexivity|].
        destruct HG as (_ & Ho & He & _ & Hp & _).
        destruct (N.eq_dec (j_id j) (job_of o)) as [Hi|Hn]; [|rewrite (Ho Hn); split; auto; apply jr_refl].
        assert (Hi' : job_of o = i) by (rewrite <- Hi; eapply tfind_key; eauto).
        assert (Hns : ~ from_job_msg JPending o) by (intros Hf; rewrite (from_job_msg_start _ _ Hf Hi') in Es; discriminate).
        split; [split|].
        - intros Hs'. destruct He as [He|He]; [congruence|]. inversion He; subst; try congruence; try contradiction.
        - destruct Hp as [->|[[? _]|[_ ->]]]; [lia|contradiction|lia].
        - intros Hp'. destruct He as [He|He]; [congruence|]. rewrite Hp' in He. destruct (j_state j') eqn:Ej'; auto;
            exfalso; apply Hns; eapply edge_from_pending; eauto; discriminate. }
      exists St. split; [|left; split; [reflexivity|]; intros j Ej; destruct (Hjr j Ej) as (j' & ? & ? & _); eauto]. split.
      - exists (n1 ++ n :: ns2). split; [|rewrite sum_app; cbn; lia]. apply Forall2_app; [exact HF1|]. constructor; [|exact HF3].
        unfold th_budget in *; cbn [fst snd] in *. rewrite Es in *. exact Hb.
      - intros j' Ej' Hne. destruct (find_job i w) as [j|] eqn:Ej.
        + destruct (Hjr j eq_refl) as (j2 & E2 & _ & Hpp). cbn [cw] in *. assert (j2 = j') by congruence. subst.
          apply (Hst j eq_refl). intros Hp. apply Hne. auto.
        + destruct HG as [_ HG]. specialize (HG i). cbn [cw] in Ej'. rewrite find_job_t in *. rewrite Ej, Ej' in HG. destruct HG as (Hp & _). contradiction. }
    unfold th_budget in Hb. cbn [fst snd] in Hb. rewrite Es in Hb. cbn [budget] in Hb. destruct (Hb w) as [[Hns Hb']|(n' & -> & Hb')]; rewrite H in *; cbn [fst snd] in *.
    + exists St. split; [|left; split; [reflexivity|]].
      * split.
        -- exists (n1 ++ n :: ns2). split; [|rewrite sum_app; cbn; lia]. apply Forall2_app; [exact HF1|]. constructor; [|exact HF3].
           unfold th_budget; cbn [fst snd]. now rewrite Es.
        -- intros j' Ej' Hne. specialize (Hns i). cbn [cw] in *. rewrite find_job_t in *. rewrite Ej' in Hns.
           destruct HG as [_ HG]. specialize (HG i). rewrite Ej' in HG.
           destruct (tfind j_id i (w_jobs w)) as [j|] eqn:Ej; [|destruct HG as (Hp & _); contradiction].
           apply (Hst j); [reflexivity|]. intros Hp. destruct HG as (_ & _ & [He|He] & _); [congruence|]. rewrite Hp in He.
           inversion He; subst; repeat match goal with H : live _ |- _ => destruct H | H : _ \/ _ |- _ => destruct H end; try congruence.
           destruct Hns as [Hns _]. assert (Hx : j_state j' = JScheduled) by congruence. specialize (Hns Hx). congruence.
      * intros j Ej. specialize (Hns i). rewrite find_job_t in *. rewrite Ej in Hns. destruct (tfind j_id i (w_jobs w')); [eauto|easy].
    + exists (S St). split; [|auto]. split; [|intros; lia].
      exists (n1 ++ n' :: ns2). split; [|rewrite sum_app; cbn; lia]. apply Forall2_app; [exact HF1|]. constructor; [|exact HF3].
      unfold th_budget; cbn [fst snd]. now rewrite Es.
  - exists St. split; [|left; auto]. split; [|exact Hst].
    apply Forall2_app_inv_l in HF as (n1 & n2 & HF1 & HF2 & ->). inversion HF2 as [|x n ths ns2 Hb HF3]; subst.
    exists (n1 ++ ns2). split; [now apply Forall2_app|]. rewrite sum_app in *. cbn in Hsum |- *. lia.
  - exists St. split; [|left; auto]. split; [|exact Hst]. exists ns. split; [exact HF|]. unfold start_delivery; cbn; lia.
  - exists St. split; [|left; auto]. split; [|exact Hst]. exists ns. split; [exact HF|]. unfold start_delivery; cbn; lia.
Qed.

Lemma submissions_app i a b : submissions_delivered i (a ++ b) = (submissions_delivered i a + submissions_delivered i b)%nat.
Proof. unfold submissions_delivered. now rewrite filter_app, app_length. Qed.
Lemma submissions_one i l : submissions_delivered i [l] = start_delivery i l.
Proof. unfold submissions_delivered, start_delivery; cbn. now destruct (is_job_delivery _ _ _). Qed.

Lemma starts_exec i c0 ls c : initial c0 -> exec c0 ls c -> exists St, starts_inv i St (submissions_delivered i ls) c.
Proof.
  intros Hi E. induction E as [c|c1 ls c2 l c3 E IH S].
  - destruct Hi as (clk & fs & ->). exists 0%nat. split; [exists []; split; [constructor|cbn; lia]|]. cbn. discriminate.
  - destruct (IH Hi) as (St & H). destruct (starts_step _ _ _ _ _ _ (exec_reach _ _ _ Hi E) S H) as (St' & H' & _).
    exists St'. now rewrite submissions_app, submissions_one.
Qed.

(** Once started, and with its submission delivered at most once, job [i] only makes steps that do not reset it. *)
Lemma started_once (P : job -> Prop) i c0 ls1 c1 ls2 c2 j :
  initial c0 -> exec c0 ls1 c1 -> exec c1 ls2 c2 -> (submissions_delivered i (ls1 ++ ls2) <= 1)%nat ->
  find_job i (cw c1) = Some j -> j_state j <> JPending -> P j ->
  (forall o ja jb, In (LOp o) ls2 -> P ja -> j_id ja = i -> job_step o ja jb -> jr ja jb -> P jb) ->
  exists j2, find_job i (cw c2) = Some j2 /\ P j2 /\ j_state j2 <> JPending /\ j_position j <= j_position j2.
Proof.
  intros Hi E1 E2 Hcnt Ej Hne HP Hstep.
  destruct (starts_exec i _ _ _ Hi E1) as (St1 & H1).
  assert (Hmain : exists St j2, starts_inv i St (submissions_delivered i (ls1 ++ ls2)) c2 /\ (1 <= St)%nat /\
     find_job i (cw c2) = Some j2 /\ P j2 /\ j_state j2 <> JPending /\ j_position j <= j_position j2); [|destruct Hmain as (?&?&?&?&?); eauto].
  induction E2 as [c1|c1 ls2 c2 l c3 E2 IH S].
  - rewrite app_nil_r. exists St1, j. split; [exact H1|]. split; [eapply (proj2 H1); eauto|]. split; [exact Ej|]. repeat split; auto; lia.
  - rewrite app_assoc in *. rewrite submissions_app in Hcnt.
    destruct IH as (St & j2 & Hinv & HSt & Ej2 & HP2 & Hne2 & Hpos); auto; [lia|intros; eapply Hstep; eauto; apply in_or_app; auto|].
    assert (HR : reachable c2) by (eapply reachable_exec; [eapply exec_reach; eauto|eauto]).
    destruct (starts_step _ _ _ _ _ _ HR S Hinv) as (St' & Hinv' & Hc).
    rewrite submissions_app, submissions_one.
    destruct (job_step_cases _ _ _ _ _ HR S Ej2) as (j3 & Ej3 & Hj3).
    assert (Hjr : jr j2 j3).
    { destruct Hc as [[_ Hc]| ->].
      - destruct (Hc _ Ej2) as (j' & Ej' & Hj'). assert (j' = j3) by congruence. now subst.
      - destruct Hinv' as [(ns & _ & Hsum) _]. rewrite submissions_one in Hcnt. lia. }
    exists St', j3. split; [exact Hinv'|]. split; [destruct Hc as [[-> _]| ->]; lia|]. split; [exact Ej3|].
    destruct Hj3 as [->|(o & -> & Hj3)]; [auto|].
    split; [eapply Hstep; eauto; [apply in_or_app; right; left; reflexivity|eapply find_job_id; eauto]|]. split.
    + destruct Hj3 as (_ & _ & [Hs|He] & _); [congruence|]. inversion He; discriminate.
    + destruct Hjr. lia.
Qed.

Lemma edge_completed o s : job_edge o JCompleted s -> s = JScheduled.
Proof. intros H. inversion H; subst; auto; repeat match goal with H : live _ |- _ => destruct H | H : _ \/ _ |- _ => destruct H end; congruence. Qed.
Lemma edge_failed o s : job_edge o JFailed s -> s = JScheduled \/ from_job_msg JRestart o.
Proof. intros H. inversion H; subst; auto; repeat match goal with H : live _ |- _ => destruct H | H : _ \/ _ |- _ => destruct H end; congruence. Qed.
Lemma edge_cancelled o s : job_edge o JCancelled s -> s = JScheduled \/ from_job_msg JRestart o.
Proof. intros H. inversion H; subst; auto; repeat match goal with H : live _ |- _ => destruct H | H : _ \/ _ |- _ => destruct H end; congruence. Qed.

Lemma completed_forever_l i c0 ls1 c1 ls2 c2 j :
  initial c0 -> exec c0 ls1 c1 -> exec c1 ls2 c2 -> (submissions_delivered i (ls1 ++ ls2) <= 1)%nat ->
  find_job i (cw c1) = Some j -> j_state j = JCompleted ->
  exists j2, find_job i (cw c2) = Some j2 /\ j_state j2 = JCompleted /\ job_outcome j2 = job_outcome j.
Proof.
  intros Hi E1 E2 Hc Ej Hs.
  destruct (started_once (fun x => j_state x = JCompleted /\ job_outcome x = job_outcome j) i c0 ls1 c1 ls2 c2 j) as (j2 & ? & [? ?] & _); eauto.
  - congruence.
  - intros o ja jb _ [Ha Hoa] _ (_ & _ & He & Ho & _) [Hjr _].
    assert (Hsb : j_state jb = j_state ja).
    { destruct He as [He|He]; [exact He|]. rewrite Ha in He. apply edge_completed in He. specialize (Hjr He). congruence. }
    split; [congruence|]. rewrite Ho; auto.
Qed.
Lemma terminal_until_restart_l i c0 ls1 c1 ls2 c2 j :
  initial c0 -> exec c0 ls1 c1 -> exec c1 ls2 c2 -> (submissions_delivered i (ls1 ++ ls2) <= 1)%nat ->
  ~ restart_handled i ls2 ->
  find_job i (cw c1) = Some j -> j_state j = JCancelled \/ j_state j = JFailed ->
  exists j2, find_job i (cw c2) = Some j2 /\ j_state j2 = j_state j /\ job_outcome j2 = job_outcome j.
Proof.
  intros Hi E1 E2 Hc Hr Ej Hs.
  destruct (started_once (fun x => j_state x = j_state j /\ job_outcome x = job_outcome j) i c0 ls1 c1 ls2 c2 j) as (j2 & ? & [? ?] & _); eauto.
  - destruct Hs; congruence.
  - intros o ja jb Hin [Ha Hoa] Hid (_ & Hoth & He & Ho & _) [Hjr _].
    destruct (N.eq_dec (j_id ja) (job_of o)) as [Hjo|Hn]; [|rewrite (Hoth Hn); auto].
    assert (Hsb : j_state jb = j_state ja).
    { destruct He as [He|He]; [exact He|]. rewrite Ha in He.
      assert (Hx : j_state jb = JScheduled \/ from_job_msg JRestart o).
      { destruct Hs as [Hs|Hs]; rewrite Hs in He; [eapply edge_cancelled|eapply edge_failed]; eauto. }
      destruct Hx as [Hx|(jm & -> & Hjm)].
      - specialize (Hjr Hx). destruct Hs; congruence.
      - exfalso. apply Hr. exists jm. cbn in Hjo. repeat split; auto. congruence. }
    split; [congruence|]. rewrite Ho; auto.
Qed.

(** ** Restart requests come from users *)
Definition restart_from (o : origin) (w w' : world) : Prop :=
  forall j, In (MJob j) (w_hist w') -> j_state j = JRestart -> In (MJob j) (w_hist w) \/ o = ORestart (j_id j).
Lemma restart_from_deliver m fuel : ops (restart_from (OMsg m)) (deliver O fuel m).
Proof. eapply ops_weaken; [|apply norestart_deliver]. intros w w' H j Hin Hs. left. auto. Qed.
Lemma restart_from_api o p : api_prog o = Some p -> ops (restart_from o) p.
Proof.
  intros E. destruct o as [m|d|i|i].
  - discriminate.
  - eapply ops_weaken; [|eapply (norestart_api (OSubmit d)); eauto; discriminate]. intros w w' H j Hin Hs. left. auto.
  - eapply ops_weaken; [|eapply (norestart_api (OCancel i)); eauto; discriminate]. intros w w' H j Hin Hs. left. auto.
  - cbn [api_prog] in E. injection E as <-. unfold api_restart.
    unfold ops. apply guar_bind. apply guar_op. intros w _. split; [exact I|]. split.
    + intros j Hin Hs. left. destruct (plain_get_job i w) as [_ H]. auto.
    + unfold a_get_job, faulty.
      assert (Hk : forall j, j_id j = i -> guar (fun _ => True) (restart_from (ORestart i))
        match j_state j with
        | JFailed | JCancelled => if Z.of_nat (length (j_tasks j)) <? j_position j then fail "job has no more tasks to run"
                                  else publish_job (j <| j_state := JRestart |>)
        | _ => fail "job can not be restarted" end any).
      { intros j Hid. assert (Hp : guar (fun _ => True) (restart_from (ORestart i)) (publish_job (j <| j_state := JRestart |>)) any).
        { apply guar_op. intros w1 _. split; [exact I|]. split; [|exact I]. intros j' Hin Hs. unfold a_publish, faulty in Hin.
          destruct (w_faults w1) as [|[|] r]; cbn in Hin; auto; apply in_app_or in Hin as [?|[Hin|[]]]; auto; injection Hin as <-; right; cbn; congruence. }
        destruct (j_state j); try (apply guar_done; exact I); destruct (_ <? _); auto; apply guar_done; exact I. }
      destruct (w_faults w) as [|[|] r]; cbn [snd]; try exact I;
        match goal with |- context [find_job i ?x] => destruct (find_job i x) eqn:Ej end; cbn [snd]; try exact I; apply Hk; eapply find_job_id; eauto.
Qed.
Lemma restart_by_user_l c0 ls c j : initial c0 -> exec c0 ls c -> In (MJob j) (w_hist (cw c)) -> j_state j = JRestart ->
  In (LApi (ORestart (j_id j))) ls.
Proof.
  intros Hi E.
  assert (Hmain : (forall j, In (MJob j) (w_hist (cw c)) -> j_state j = JRestart -> In (LApi (ORestart (j_id j))) ls) /\
    Forall (fun th => ops (restart_from (fst th)) (snd th) /\ forall i, fst th = ORestart i -> In (LApi (ORestart i)) ls) (cthreads c)).
  2:{ intros. apply Hmain; auto. }
  clear j. induction E as [c|c1 ls c2 l c3 E IH S].
  - destruct Hi as (clk & fs & ->). cbn. split; [easy|constructor].
  - destruct (IH Hi) as [IH1 IH2].
    assert (IH2' : forall l0 : list (origin * prog unit), Forall (fun th => ops (restart_from (fst th)) (snd th) /\ forall i, fst th = ORestart i -> In (LApi (ORestart i)) ls) l0 ->
       Forall (fun th => ops (restart_from (fst th)) (snd th) /\ forall i, fst th = ORestart i -> In (LApi (ORestart i)) (ls ++ [l])) l0).
    { intros l0. apply Forall_impl. intros th [? ?]. split; auto. intros; apply in_or_app; auto. }
    destruct S; cbn [cw cthreads] in *.
    + split; [intros; apply in_or_app; auto|]. apply Forall_app; split; auto. constructor; [|constructor]. cbn [fst snd].
      split; [apply restart_from_deliver|discriminate].
    + split; [intros; apply in_or_app; auto|]. apply Forall_app; split; auto. constructor; [|constructor]. cbn [fst snd].
      split; [now apply restart_from_api|]. intros i ->. apply in_or_app; right; now left.
    + apply Forall_app in IH2 as [HA HB]. inversion HB as [|? ? [Hop Hor] HC]; subst. cbn [fst snd] in *.
      destruct (ops_step _ _ _ w Hop) as [HG Hk]. rewrite H in HG, Hk. cbn [fst snd] in *. split.
      * intros j Hin Hs. apply in_or_app; left. destruct (HG j Hin Hs) as [?|?]; auto.
      * apply Forall_app; split; auto.
    + split; [intros; apply in_or_app; auto|]. apply Forall_app in IH2 as [HA HB]. inversion HB; subst. apply Forall_app; auto.
    + split; [intros; apply in_or_app; auto|auto].
    + split; [|auto]. intros j Hin Hs. apply in_or_app; left. cbn in Hin. apply in_app_or in Hin as [?|[->|[]]]; auto. inversion H.
Qed.

(** ** Finished tasks *)
Lemma task_finished_l i c ls c' t :
  reachable c -> exec c ls c' -> find_task i (cw c) = Some t ->
  t_state t = TCompleted \/ t_state t = TFailed \/ t_state t = TCancelled ->
  ~ pending_handled i (t_job t) ls ->
  exists t', find_task i (cw c') = Some t' /\ (t_state t' = t_state t \/ t_state t' = TCancelled) /\
    t_result t' = t_result t /\ t_completed t' = t_completed t /\ t_error t' = t_error t /\ t_failed t' = t_failed t.
Proof.
  intros HR E Et Hs Hp.
  assert (Hmain : exists t', find_task i (cw c') = Some t' /\ tdef t' = tdef t /\ (t_state t' = t_state t \/ t_state t' = TCancelled) /\
    t_result t' = t_result t /\ t_completed t' = t_completed t /\ t_error t' = t_error t /\ t_failed t' = t_failed t);
    [|destruct Hmain as (?&?&?&?); eauto].
  induction E as [c|c1 ls c2 l c3 E IH S]; [eauto 12|].
  destruct IH as (t2 & E2 & Hd2 & Hs2 & Hr2 & Hc2 & He2 & Hf2); auto.
  { intros [(x & Hin & ?)|(x & Hin & ?)]; apply Hp; [left|right]; exists x; split; auto; apply in_or_app; auto. }
  assert (HR2 : reachable c2) by (eapply reachable_exec; eauto).
  destruct (task_step_cases _ _ _ _ _ HR2 S E2) as (t3 & E3 & [->|(o & -> & H3)]); [eauto 12|].
  exists t3. split; [exact E3|].
  destruct (N.eq_dec (t_job t2) (job_of o)) as [Hj|Hn]; [|destruct H3 as (_ & Ho & _); rewrite (Ho Hn); auto 12].
  destruct H3 as (Hd3 & _ & Hs3 & Hf3 & Hr3).
  assert (Hfin : t_state t2 = TCompleted \/ t_state t2 = TFailed \/ t_state t2 = TCancelled) by (destruct Hs2 as [->| ->]; auto).
  assert (Hnotact : active (t_state t2) = false) by (destruct Hfin as [-> |[-> | ->]]; reflexivity).
  assert (Hnc : ~ (t_state t2 = TRunning \/ t_state t2 = TScheduled \/ t_state t2 = TSkipped)) by (intros [?|[?|?]]; destruct Hfin as [? |[? | ?]]; congruence).
  assert (Hid : t_id t2 = i) by (eapply find_task_id; eauto).
  assert (Hs3' : t_state t3 = t_state t2 \/ t_state t3 = TCancelled).
  { destruct Hs3 as [?|He]; [auto|]. rewrite Hid in He. inversion He as [s s' Ho Hss|Hq Hto Ha Hb|s s' Hq Hss Hss' Ha Hb|Hq Ha Hb|s Hto Hact Ha Hb|s Hm Ha Hb]; subst; auto; exfalso; try congruence.
    - apply Hp. destruct Ho as [[(x & ->) Hto]|(x & -> & Hxs)].
      + left. exists x. cbn in Hto. injection Hto as <-. split; auto. apply in_or_app; right; now left.
      + right. exists x. cbn in Hj. repeat split; auto; [apply in_or_app; right; now left|].
        apply tdef_proj in Hd2. destruct Hd2 as (_ & Hd2 & _). congruence.
    - auto.
    - destruct Hfin as [? |[? | ?]]; congruence. }
  split; [congruence|]. split; [destruct Hs3' as [->| ->]; auto|].
  destruct Hf3 as [[-> ->]|[? _]]; [|congruence]. destruct Hr3 as [[-> ->]|(_ & ? & _)]; [auto|contradiction].
Qed.

(** ** Isolation *)
Lemma isolation_jobs_l c l c' i j : reachable c -> step c l c' -> find_job i (cw c) = Some j ->
  (forall o, l = LOp o -> job_of o <> i) -> find_job i (cw c') = Some j.
Proof.
  intros HR S E Hl. destruct (job_step_cases _ _ _ _ _ HR S E) as (j' & E' & [->|(o & -> & H)]); [exact E'|].
  destruct H as (_ & Ho & _). rewrite Ho in E'; [exact E'|]. rewrite (find_job_id _ _ _ E). intros He. eapply Hl; eauto.
Qed.
Lemma isolation_tasks_l c l c' i t : reachable c -> step c l c' -> find_task i (cw c) = Some t ->
  (forall o, l = LOp o -> job_of o <> t_job t) -> find_task i (cw c') = Some t.
Proof.
  intros HR S E Hl. destruct (task_step_cases _ _ _ _ _ HR S E) as (t' & E' & [->|(o & -> & H)]); [exact E'|].
  destruct H as (_ & Ho & _). rewrite Ho in E'; [exact E'|]. intros He. eapply Hl; eauto.
Qed.
Lemma isolation_new_l c l c' i t : reachable c -> step c l c' -> find_task i (cw c) = None -> find_task i (cw c') = Some t ->
  exists o, l = LOp o /\ job_of o = t_job t.
Proof.
  intros HR S E E'. destruct (task_created _ _ _ _ _ HR S E E') as (o & -> & H & _). eauto.
Qed.

(** ** Retries and redeliveries *)
Lemma retry_bound_l c t : reachable c ->
  (In t (w_tasks (cw c)) \/ (exists q, In (MTask q t) (w_hist (cw c))) \/ In (MProgress t) (w_hist (cw c))) ->
  retry_ok (t_retry t) /\ 0 <= t_redelivered t <= 5.
Proof.
  intros HR H. apply reachable_inv in HR. destruct H as [H|[(q & H)|H]].
  - apply (inv_tasks _ HR) in H as (H & _). destruct H as (?&?&_); auto.
  - apply (inv_hist _ HR) in H as (H & _). destruct H as (?&?&_); auto.
  - apply (inv_hist _ HR) in H as (H & _). destruct H as (?&?&_); auto.
Qed.

(** ** Threads handle delivered messages *)
Lemma thread_delivered_l c0 ls c m p : initial c0 -> exec c0 ls c -> In (OMsg m, p) (cthreads c) -> In (LDeliver m) ls.
Proof.
  intros Hi E. revert p. induction E as [c|c1 ls c2 l c3 E IH S]; intros p Hin.
  - destruct Hi as (clk & fs & ->). easy.
  - apply in_or_app. destruct S; cbn [cthreads] in *.
    + apply in_app_or in Hin as [Hin|[Hin|[]]]; [left; eauto|]. injection Hin as -> _. right; now left.
    + apply in_app_or in Hin as [Hin|[Hin|[]]]; [left; eauto|]. injection Hin as -> _. discriminate.
    + left. apply in_app_or in Hin as [Hin|[Hin|Hin]].
      * eapply IH; eauto. apply in_or_app; eauto.
      * injection Hin as -> _. eapply IH; eauto. apply in_or_app; right; now left.
      * eapply IH; eauto. apply in_or_app; right; right; eauto.
    + left. apply in_app_or in Hin as [Hin|Hin]; (eapply IH; [eauto|]); apply in_or_app; [left|right; right]; eauto.
    + left; eauto.
    + left; eauto.
Qed.
Lemma op_delivered_l c0 ls c m : initial c0 -> exec c0 ls c -> In (LOp (OMsg m)) ls -> In (LDeliver m) ls.
Proof.
  intros Hi E. induction E as [c|c1 ls c2 l c3 E IH S]; [easy|].
  intros Hin. apply in_or_app. apply in_app_or in Hin as [Hin|[->|[]]]; [left; auto|]. left.
  inversion S; subst. eapply thread_delivered_l; eauto. cbn [cthreads]. apply in_or_app; right; now left.
Qed.
End Traces.
