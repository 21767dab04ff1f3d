(** Counting completions, releases and retries along executions. Proofs; the theorems are in PropsEffect.v. *)
From Verif Require Export EffectAll.
Open Scope string_scope.
Open Scope list_scope.
Open Scope Z_scope.

Section Count.
Variable O : oracle.

Lemma step_row c l c' i t : reachable O c -> step O c l c' -> find_task i (cw c) = Some t ->
  exists t', find_task i (cw c') = Some t' /\ tdef t' = tdef t /\ trow t t'.
Proof. intros HR S E. destruct (effect_step _ _ _ _ HR S) as (_ & H & _). eapply Rb_row; eauto. Qed.
Lemma tdef_parent t t' : tdef t' = tdef t -> t_parent t' = t_parent t.
Proof. intros H. now apply tdef_proj in H. Qed.

(** completed children *)
Definition ids_of (p : id) (w : world) : list id := map t_id (filter (completed_child p) (w_tasks w)).
Lemma ids_length p w : length (ids_of p w) = completed_children p w.
Proof. apply map_length. Qed.
Lemma NoDup_map_filter {A B} (f : A -> B) (q : A -> bool) l : NoDup (map f l) -> NoDup (map f (filter q l)).
Proof.
  induction l as [|a l IH]; cbn; intros H; [constructor|]. inversion H as [|? ? H1 H2]; subst.
  destruct (q a); cbn; [|auto]. constructor; [|auto]. intros Hin. apply H1. apply in_map_iff in Hin as (x & <- & Hx).
  apply in_map. now apply filter_In in Hx.
Qed.
Lemma ids_nodup p w : Inv w -> NoDup (ids_of p w).
Proof. intros HI. apply NoDup_map_filter, HI. Qed.
Lemma ids_in p w i : Inv w -> In i (ids_of p w) <-> exists t, find_task i w = Some t /\ t_parent t = p /\ t_state t = TCompleted.
Proof.
  intros HI. unfold ids_of. rewrite in_map_iff. split.
  - intros (t & <- & Hin). apply filter_In in Hin as [Hin Hc]. exists t. unfold completed_child in Hc.
    apply andb_true_iff in Hc as [H1 H2]. apply N.eqb_eq in H1. ands; auto.
    + rewrite find_task_t. apply tfind_nodup; auto. apply HI.
    + destruct (t_state t); try discriminate; reflexivity.
  - intros (t & E & Hp & Hs). exists t. split; [now apply tfind_key in E|]. apply filter_In. split; [now apply tfind_in in E|].
    unfold completed_child. rewrite Hp, Hs, N.eqb_refl. reflexivity.
Qed.
Lemma ids_le p w w' : Inv w -> Inv w' -> (forall i, In i (ids_of p w') -> In i (ids_of p w)) ->
  (completed_children p w' <= completed_children p w)%nat.
Proof. intros HI HI' H. rewrite <- !ids_length. apply NoDup_incl_length; [now apply ids_nodup|exact H]. Qed.
Lemma ids_le1 p w w' x : Inv w -> Inv w' -> (forall i, In i (ids_of p w') -> i = x \/ In i (ids_of p w)) ->
  (completed_children p w' <= S (completed_children p w))%nat.
Proof.
  intros HI HI' H. rewrite <- !ids_length. change (S (length (ids_of p w))) with (length (x :: ids_of p w)).
  apply NoDup_incl_length; [now apply ids_nodup|]. intros i Hi. destruct (H i Hi); [left; auto|right; auto].
Qed.

(** how the count of a task changes in a step *)
Lemma count_step c l c' p t : reachable O c -> step O c l c' -> find_task p (cw c) = Some t ->
  exists t', find_task p (cw c') = Some t' /\
   ((child_recorded p (cw c) (cw c') /\ count_of t' = count_of t + 1) \/
    (~ child_recorded p (cw c) (cw c') /\ count_of t' = count_of t)).
Proof.
  intros HR S E. pose proof (reachable_inv _ _ HR) as HI.
  assert (Hpar : forall x, records (cw c) (cw c') x -> exists t', find_task p (cw c') = Some t' /\
    ((exists u, find_task x (cw c) = Some u /\ t_parent u = p /\ count_of t' = count_of t + 1) \/
     ((forall u, find_task x (cw c) = Some u -> t_parent u <> p) /\ count_of t' = count_of t))).
  { intros x Hx. destruct (records_row _ _ _ _ _ HI Hx E) as (t' & E' & Hc). exists t'. split; [exact E'|].
    destruct Hc as [[-> Hr]|[(_ & u & Eu & Hp & Hc & _)|[(Hn & Hs & -> & u & Eu & Hp)|(Hn & -> & Hp)]]].
    - right. split; [|now apply recorded_count in Hr]. intros u Eu. pose proof (inv_row _ _ _ HI Eu) as (_ & Hid & Hk & _).
      intros Hp. assert (Hne : t_parent u <> noid).
      { rewrite Hp. pose proof (inv_task_fresh _ HI u (tfind_in _ _ _ _ Eu)). rewrite Hid in *. unfold noid. lia. }
      destruct (Hk Hne) as (Hlt & _). rewrite Hp, Hid in Hlt. lia.
    - left. eauto.
    - right. split; [|reflexivity]. intros v Ev Hv. assert (v = u) by congruence. subst v.
      rewrite Hv in Hp. pose proof (inv_row _ _ _ HI E) as (_ & Hid & Hk & _).
      assert (Hne : t_parent t <> noid).
      { rewrite <- Hp. pose proof (inv_task_fresh _ HI t (tfind_in _ _ _ _ E)). rewrite Hid in *. unfold noid. lia. }
      destruct (Hk Hne) as (Hlt & _). rewrite <- Hp, Hid in Hlt. lia.
    - right. auto. }
  assert (Hno : (exists t', find_task p (cw c') = Some t' /\ count_of t' = count_of t) ->
    exists t', find_task p (cw c') = Some t' /\
   ((child_recorded p (cw c) (cw c') /\ count_of t' = count_of t + 1) \/
    (~ child_recorded p (cw c) (cw c') /\ count_of t' = count_of t))).
  { intros (t' & E' & Hc). exists t'. split; [exact E'|]. right. split; [|exact Hc]. intros (x & u & Hx & Eu & Hp).
    destruct (Hpar x Hx) as (t2 & E2 & [(v & Ev & Hv & Hcv)|(Hv & _)]); [|now apply (Hv u)].
    assert (t2 = t') by congruence. subst t2. lia. }
  destruct (effect_cases _ _ _ _ HR S) as [(o & Hq & _)|[(o & x & -> & Hq & Hx & _)|(o & -> & Hq & Hl)]].
  - apply Hno. destruct Hq as [Hq _]. specialize (Hq p). rewrite E in Hq. destruct (find_task p (cw c')) as [t'|]; [|contradiction].
    exists t'. split; [reflexivity|]. apply Hq.
  - destruct (Hpar x Hx) as (t' & E' & [(u & Eu & Hu & Hc)|(Hu & Hc)]); exists t'; (split; [exact E'|]).
    + left. split; [|exact Hc]. exists x, u. auto.
    + right. split; [|exact Hc]. intros (y & v & Hy & Ev & Hv).
      destruct (Hpar y Hy) as (t2 & E2 & [(v' & Ev' & Hv' & Hcv)|(Hv' & _)]); [|now apply (Hv' v)].
      assert (t2 = t') by congruence. subst t2. lia.
  - apply Hno. destruct (leaks_row _ _ _ _ Hl E) as (t' & E' & [->|(_ & ->)]); eauto.
Qed.
Lemma count_tally c ls c' p t : reachable O c -> exec O c ls c' -> find_task p (cw c) = Some t ->
  exists t' n, find_task p (cw c') = Some t' /\ tally O (child_recorded p) c ls n c' /\ count_of t' = count_of t + Z.of_nat n.
Proof.
  intros HR E Et. induction E as [|c1 ls c2 l c3 E IH S].
  - exists t, 0%nat. ands; auto; [constructor|lia].
  - destruct (IH HR Et) as (t2 & n & E2 & Ht & Hc). pose proof (reachable_exec _ _ _ _ HR E) as HR2.
    destruct (count_step _ _ _ _ _ HR2 S E2) as (t3 & E3 & [[H3 Hc3]|[H3 Hc3]]).
    + exists t3, (Datatypes.S n). ands; auto; [eapply ta_hit; eauto|lia].
    + exists t3, n. ands; auto; [eapply ta_miss; eauto|lia].
Qed.
Lemma tally_fun E c ls n c' : tally O E c ls n c' -> exec O c ls c'.
Proof. intros H. induction H; econstructor; eauto. Qed.

(** no row becomes COMPLETED except by being recorded *)
Lemma completed_by_record c l c' i t t' : reachable O c -> step O c l c' -> find_task i (cw c) = Some t -> find_task i (cw c') = Some t' ->
  t_state t' = TCompleted -> t_state t <> TCompleted ->
  exists o, l = LOp o /\ from_queue QUEUE_COMPLETED o /\ records (cw c) (cw c') i /\ (as_reported o (cw c') i \/ filled false (cw c) i).
Proof.
  intros HR S E E' Hs Hn. pose proof (reachable_inv _ _ HR) as HI.
  destruct (effect_cases _ _ _ _ HR S) as [(o & Hq & _)|[(o & x & -> & Hq & Hx & Hi)|(o & -> & Hq & Hl)]].
  - destruct Hq as [Hq _]. specialize (Hq i). rewrite E, E' in Hq. exfalso. apply Hn. apply Hq. exact Hs.
  - destruct (records_row _ _ _ _ _ HI Hx E) as (t2 & E2 & Hc). assert (t2 = t') by congruence. subst t2.
    destruct Hc as [[-> Hr]|[(_ & u & Eu & Hp & Hc & _ & Hd)|[(_ & _ & Hc & _)|(_ & Hc & _)]]].
    + eauto 10.
    + rewrite Hd in Hs. cbn in Hs. contradiction.
    + rewrite Hc in Hs. cbn in Hs. discriminate.
    + congruence.
  - destruct (leaks_row _ _ _ _ Hl E) as (t2 & E2 & Hc). assert (t2 = t') by congruence. subst t2.
    destruct Hc as [->|(_ & ->)]; [contradiction|discriminate].
Qed.
Lemma not_born_completed c l c' i t' : reachable O c -> step O c l c' -> find_task i (cw c) = None -> find_task i (cw c') = Some t' ->
  t_state t' <> TCompleted.
Proof.
  intros HR S E E'. destruct (task_created _ _ _ _ _ _ HR S E E') as (o & _ & _ & [H|[H|H]] & _); congruence.
Qed.

(** at least as many completions as completed children *)
Lemma count_bound c p t : reachable O c -> find_task p (cw c) = Some t -> Z.of_nat (completed_children p (cw c)) <= count_of t.
Proof.
  intros (c0 & ls & Hi & E). revert p t. induction E as [|c1 ls c2 l c3 E IH S]; intros p t Et.
  - destruct Hi as (clk & fs & ->). discriminate Et.
  - specialize (IH Hi). assert (HR : reachable O c2) by (exists c1, ls; auto).
    pose proof (reachable_step _ _ _ _ HR S) as HR'. pose proof (reachable_inv _ _ HR) as HI. pose proof (reachable_inv _ _ HR') as HI'.
    (* completed children of p in the new state *)
    assert (Hold : forall i, In i (ids_of p (cw c3)) -> In i (ids_of p (cw c2)) \/
              (records (cw c2) (cw c3) i /\ exists u, find_task i (cw c2) = Some u /\ t_parent u = p)).
    { intros i Hin. apply (ids_in _ _ _ HI') in Hin as (x' & Ex' & Hp & Hs).
      destruct (find_task i (cw c2)) as [x|] eqn:Ex; [|exfalso; exact (not_born_completed _ _ _ _ _ HR S Ex Ex' Hs)].
      destruct (step_row _ _ _ _ _ HR S Ex) as (x2 & Ex2 & Hd & _). assert (x2 = x') by congruence. subst x2. apply tdef_parent in Hd.
      destruct (tstate_eqb (t_state x) TCompleted) eqn:Es.
      - left. apply (ids_in _ _ _ HI). exists x. ands; auto; [congruence|]. destruct (t_state x); try discriminate; reflexivity.
      - right. assert (Hnc : t_state x <> TCompleted) by (intros Hc; rewrite Hc in Es; discriminate).
        destruct (completed_by_record _ _ _ _ _ _ HR S Ex Ex' Hs Hnc) as (o & _ & _ & Hr & _). split; [exact Hr|]. exists x. split; [reflexivity|congruence]. }
    destruct (find_task p (cw c2)) as [t0|] eqn:E0.
    + destruct (count_step _ _ _ _ _ HR S E0) as (t' & E' & Hc). assert (t' = t) by congruence. subst t'. specialize (IH p t0 E0).
      destruct Hc as [[(x & u & Hx & Eu & Hu) Hc]|[Hno Hc]].
      * assert (Hle : (completed_children p (cw c3) <= Datatypes.S (completed_children p (cw c2)))%nat).
        { apply (ids_le1 p _ _ x); auto. intros i Hin. destruct (Hold i Hin) as [H|[Hr _]]; [auto|].
          destruct (N.eq_dec i x) as [->|Hne]; [auto|]. right.
          apply (ids_in _ _ _ HI') in Hin as (y' & Ey' & Hyp & Hys).
          destruct Hr as (y & y2 & Ey & Ey2 & _). assert (y2 = y') by congruence. subst y2.
          destruct (records_row _ _ _ _ _ HI Hx Ey) as (y3 & Ey3 & Hy). assert (y3 = y') by congruence. subst y3.
          destruct (step_row _ _ _ _ _ HR S Ey) as (y4 & Ey4 & Hd & _). assert (y4 = y') by congruence. subst y4. apply tdef_parent in Hd.
          apply (ids_in _ _ _ HI). exists y. ands; auto; [congruence|].
          destruct Hy as [[-> _]|[(_ & v & _ & _ & _ & _ & Hy)|[(_ & _ & Hy & _)|(_ & Hy & _)]]]; [contradiction| | |congruence].
          - rewrite Hy in Hys. exact Hys.
          - rewrite Hy in Hys. discriminate. }
        lia.
      * assert (Hle : (completed_children p (cw c3) <= completed_children p (cw c2))%nat).
        { apply ids_le; auto. intros i Hin. destruct (Hold i Hin) as [H|[Hr (u & Eu & Hu)]]; [auto|]. exfalso. apply Hno.
          exists i, u. auto. }
        lia.
    + (* a new task has no children yet *)
      assert (Hz : ids_of p (cw c3) = []).
      { destruct (ids_of p (cw c3)) as [|i r] eqn:Ei; [reflexivity|]. exfalso.
        assert (Hpn : p <> noid).
        { pose proof (inv_task_fresh _ HI' t (tfind_in _ _ _ _ Et)) as Hf. apply tfind_key in Et. rewrite Et in Hf. unfold noid. lia. }
        assert (Hx : exists x, find_task i (cw c2) = Some x /\ t_parent x = p).
        { destruct (Hold i) as [H|[_ H]]; [left; reflexivity| |exact H]. apply (ids_in _ _ _ HI) in H as (x & Ex & Hp & _). eauto. }
        destruct Hx as (x & Ex & Hp). destruct (inv_row _ _ _ HI Ex) as (_ & _ & Hk & _). rewrite <- Hp in Hpn.
        destruct (Hk Hpn) as (_ & q & Eq & _). rewrite Hp in Eq. congruence. }
      rewrite <- ids_length, Hz. cbn.
      destruct (reachable_both _ _ HR') as (_ & H2 & _). apply (proj1 H2 _ _ Et).
Qed.

(** a composite task is not completed before its count is full, unless a completion message about the task itself was handled *)
Notation itself := completion_delivered.
Lemma filled_by_children b c0 ls c p t : initial c0 -> exec_where O (Pb anyD b) c0 ls c -> ~ itself p ls ->
  find_task p (cw c) = Some t -> t_state t = TCompleted -> filled b (cw c) p.
Proof.
  intros Hi E. revert p t. induction E as [|c1 ls c2 l c3 E IH S HP]; intros p t Hno Et Hs.
  - destruct Hi as (clk & fs & ->). discriminate Et.
  - specialize (IH Hi). pose proof (both_where O anyD b _ _ _ (both_initial O anyD b _ Hi) E) as [HB _].
    assert (HR : reachable O c2) by (exists c1, ls; split; [exact Hi|eapply exec_where_exec; eauto]).
    destruct (both_step O anyD b _ _ _ HB S HP) as (_ & HRb & HG).
    assert (Hno' : ~ itself p ls) by (intros (x & Hin & Hx); apply Hno; exists x; rewrite in_app_iff; auto).
    destruct (find_task p (cw c2)) as [t0|] eqn:E0; [|exfalso; exact (not_born_completed _ _ _ _ _ HR S E0 Et Hs)].
    destruct (tstate_eqb (t_state t0) TCompleted) eqn:Es.
    { eapply filled_R; [exact HRb|]. apply (IH p t0); auto. destruct (t_state t0); try discriminate; reflexivity. }
    assert (Hn : t_state t0 <> TCompleted) by (intros Hc; rewrite Hc in Es; discriminate).
    destruct (completed_by_record _ _ _ _ _ _ HR S E0 Et Hs Hn) as (o & -> & Hq & Hr & _).
    destruct HG as [HG|(_ & _ & [(x & Hx & Hch)|Hl])].
    + exfalso. destruct HG as [HG _]. specialize (HG p). rewrite E0, Et in HG. apply Hn. apply HG. exact Hs.
    + (* the recorded task is p *)
      assert (x = p).
      { destruct (records_row _ _ _ _ _ (reachable_inv _ _ HR) Hx E0) as (t2 & E2 & Hc). assert (t2 = t) by congruence. subst t2.
        destruct Hc as [[Heq _]|[(_ & u & _ & _ & _ & _ & Hy)|[(_ & _ & Hy & _)|(_ & Hy & _)]]]; [congruence| | |congruence].
        - rewrite Hy in Hs. contradiction. - rewrite Hy in Hs. discriminate. }
      subst x. destruct Hch as [Ho|Hf]; [|eapply filled_R; eauto].
      exfalso. apply Hno. destruct Ho as (m & u' & -> & Ho & _). exists m. split; [|exact Ho].
      eapply op_delivered_l; [exact Hi|eapply exec_where_exec; econstructor; eauto|]. apply in_or_app. right. now left.
    + exfalso. destruct (leaks_row _ _ _ _ Hl E0) as (t2 & E2 & Hc). assert (t2 = t) by congruence. subst t2.
      destruct Hc as [->|(_ & ->)]; [contradiction|discriminate].
Qed.

(** ** releases *)
Lemma quiet_no_release o w w' p : quiet O o w w' -> ~ child_released p w w'.
Proof.
  intros [H _] (x & c & c' & E & _ & Hs & E' & Hs'). specialize (H x). rewrite E, E' in H.
  destruct H as (_ & _ & _ & _ & Hn & _). auto.
Qed.
Lemma release_step c l c' p t e : reachable O c -> step O c l c' -> ~ leaks (cw c) (cw c') ->
  ~ pending_handled p (t_job t) [l] -> find_task p (cw c) = Some t -> each_of t = Some e ->
  exists t' e', find_task p (cw c') = Some t' /\ each_of t' = Some e' /\ t_job t' = t_job t /\
    ((e' = e /\ ~ child_released p (cw c) (cw c')) \/
     (e' = e <| e_completions := e_completions e + 1 |> <| e_index := e_index e + 1 |> /\
      (child_released p (cw c) (cw c') <-> e_completions e + 1 < e_size e /\ 0 < e_concurrency e /\ e_index e < e_size e))).
Proof.
  intros HR S Hnl Hnp E He. pose proof (reachable_inv _ _ HR) as HI.
  destruct (step_row _ _ _ _ _ HR S E) as (t' & E' & Hd & _).
  assert (Hj : t_job t' = t_job t) by (now apply tdef_proj in Hd).
  assert (Hp : t_parallel t = None) by (unfold each_of in He; now destruct (t_parallel t)).
  assert (Hp' : t_parallel t' = None).
  { apply tdef_proj in Hd as (_&_&_&_&_&_&_&Hx&_). rewrite Hp in Hx. now destruct (t_parallel t'). }
  assert (Hte : t_each t = Some e) by (unfold each_of in He; now rewrite Hp in He).
  assert (Hkeep : t_each t' = t_each t -> ~ child_released p (cw c) (cw c') ->
     exists t' e', find_task p (cw c') = Some t' /\ each_of t' = Some e' /\ t_job t' = t_job t /\
      ((e' = e /\ ~ child_released p (cw c) (cw c')) \/
       (e' = e <| e_completions := e_completions e + 1 |> <| e_index := e_index e + 1 |> /\
       (child_released p (cw c) (cw c') <-> e_completions e + 1 < e_size e /\ 0 < e_concurrency e /\ e_index e < e_size e)))).
  { intros Hx Hr. exists t', e. ands; auto. unfold each_of. now rewrite Hp', Hx. }
  destruct (effect_cases _ _ _ _ HR S) as [(o & Hq & Hlo)|[(o & x & -> & Hq & Hx & _)|(o & -> & Hq & Hl)]].
  - apply Hkeep; [|eapply quiet_no_release; eauto].
    destruct Hlo as [->|[HT _]]; [|unfold find_task in *; rewrite HT in E'; congruence].
    pose proof Hq as [Hq' _]. specialize (Hq' p). rewrite E, E' in Hq'. destruct Hq' as (_ & _ & _ & _ & _ & [Hs|Hs]); [exact Hs|].
    destruct (task_step_cases _ _ _ _ _ _ HR S E) as (t2 & E2 & Hc). assert (t2 = t') by congruence. subst t2.
    destruct Hc as [->|(o2 & Ho2 & Hstep)]; [reflexivity|]. injection Ho2 as <-.
    destruct (N.eq_dec (t_job t) (job_of o)) as [Hjo|Hjo]; [|destruct Hstep as (_ & Hstep & _); rewrite (Hstep Hjo); reflexivity].
    exfalso. apply Hnp. pose proof (tfind_key _ _ _ _ E) as Hid. destruct Hs as [[(m & ->) Ht]|(jm & -> & Hjs)].
    + left. exists m. split; [now left|]. cbn in Ht. congruence.
    + right. exists jm. split; [now left|]. split; [cbn in Hjo; congruence|exact Hjs].
  - (* a completion *)
    pose proof Hx as Hx0. destruct Hx as (u & u' & Eu & Eu' & Hr & Hc).
    assert (Hxid : t_id u = x) by (now apply tfind_key in Eu).
    destruct Hc as [(Hn & j & j' & _ & _ & _ & Ho & _)|(Hn & q & q' & j & j' & rel & Eq & Eq' & Hne & Hcnt & Hw & Hpp & _ & _ & _ & _ & _ & Hrel & Ho & Hea)].
    + apply Hkeep.
      * destruct (N.eq_dec p x) as [->|Hpx].
        -- assert (t = u) by congruence. assert (t' = u') by congruence. subst. now apply recorded_count in Hr.
        -- rewrite Ho in E' by congruence. congruence.
      * intros (y & ch & ch' & Ec & _ & Hsc & Ec' & Hsc'). destruct (N.eq_dec y x) as [->|Hyx].
        -- assert (ch = u) by congruence. subst ch. destruct Hr as ([H|[H|H]] & _); congruence.
        -- rewrite Ho in Ec' by congruence. congruence.
    + destruct (N.eq_dec (t_parent u) p) as [Hpp2|Hpp2].
      * (* a child of p *)
        rewrite Hpp2 in *. assert (q = t) by congruence. assert (q' = t') by congruence. subst q q'.
        rewrite Hp, Hte in Hea. destruct (t_each t') as [e'|] eqn:Hte'.
        2:{ exfalso. apply tdef_proj in Hd as (_&_&_&_&_&_&_&_&Hx&_). rewrite Hte, Hte' in Hx. discriminate. }
        destruct Hea as [He' Hrl]. exists t', e'. ands; auto; [unfold each_of; now rewrite Hp'|]. right. split; [exact He'|].
        rewrite <- Hrl. split.
        -- intros (y & ch & ch' & Ec & _ & Hsc & Ec' & Hsc') Hnone. rewrite Hnone in *. destruct (N.eq_dec y x) as [->|Hyx].
           ++ assert (ch = u) by congruence. subst ch. destruct Hr as ([H|[H|H]] & _); congruence.
           ++ destruct (N.eq_dec y p) as [->|Hyp].
              ** assert (ch = t) by congruence. assert (ch' = t') by congruence. subst. rewrite Hpp in Hsc'. cbn in Hsc'. congruence.
              ** rewrite Ho in Ec' by congruence. congruence.
        -- destruct rel as [y|]; [|congruence]. intros _. destruct Hrel as (_ & _ & ch & Ec & Hcp & Hcs & Ec').
           exists y, ch. eexists. ands; eauto.
      * apply Hkeep.
        -- destruct (N.eq_dec p x) as [->|Hpx].
           ++ assert (t = u) by congruence. assert (t' = u') by congruence. subst. now apply recorded_count in Hr.
           ++ destruct rel as [y|]; [destruct (N.eq_dec p y) as [->|Hpy]|].
              ** destruct Hrel as (_ & _ & ch & Ec & _ & _ & Ec'). assert (ch = t) by congruence. subst ch.
                 rewrite Ec' in E'. injection E' as <-. reflexivity.
              ** rewrite Ho in E' by congruence. congruence.
              ** rewrite Ho in E' by congruence. congruence.
        -- intros (y & ch & ch' & Ec & Hcp & Hsc & Ec' & Hsc'). destruct (N.eq_dec y x) as [->|Hyx].
           { assert (ch = u) by congruence. subst ch. destruct Hr as ([H|[H|H]] & _); congruence. }
           destruct (N.eq_dec y (t_parent u)) as [->|Hyp].
           { assert (ch = q) by congruence. assert (ch' = q') by congruence. subst. rewrite Hpp in Hsc'. cbn in Hsc'. congruence. }
           destruct rel as [z|]; [destruct (N.eq_dec y z) as [->|Hpy]|].
           ++ destruct Hrel as (_ & _ & ch2 & Ec2 & Hcp2 & _). congruence.
           ++ rewrite Ho in Ec' by congruence. congruence.
           ++ rewrite Ho in Ec' by congruence. congruence.
  - contradiction.
Qed.
Lemma releases_tally c ls c' p t e : reachable O c -> exec_where O (fun w w' => ~ leaks w w') c ls c' ->
  ~ pending_handled p (t_job t) ls -> find_task p (cw c) = Some t -> each_of t = Some e ->
  0 < e_concurrency e -> e_index e = e_concurrency e + e_completions e ->
  exists t' e' n, find_task p (cw c') = Some t' /\ each_of t' = Some e' /\ t_job t' = t_job t /\
    e_size e' = e_size e /\ e_concurrency e' = e_concurrency e /\ e_index e' = e_concurrency e' + e_completions e' /\
    tally O (child_released p) c ls n c' /\
    Z.of_nat n = Z.min (e_size e) (e_concurrency e + e_completions e') - Z.min (e_size e) (e_concurrency e + e_completions e).
Proof.
  intros HR E. induction E as [|c1 ls c2 l c3 E IH S HP]; intros Hnp Et He Hk Hidx.
  - exists t, e, 0%nat. ands; auto; [constructor|lia].
  - assert (Hnp1 : ~ pending_handled p (t_job t) ls).
    { intros [(x & Hx & Hy)|(x & Hx & Hy)]; apply Hnp; [left|right]; exists x; rewrite in_app_iff; auto. }
    destruct (IH HR Hnp1 Et He Hk Hidx) as (t2 & e2 & n & E2 & He2 & Hj & Hsz & Hcc & Hi2 & Ht & Hn).
    pose proof (reachable_exec _ _ _ _ HR (exec_where_exec _ _ _ _ _ E)) as HR2.
    assert (Hnp2 : ~ pending_handled p (t_job t2) [l]).
    { rewrite Hj. intros [(x & Hx & Hy)|(x & Hx & Hy)]; apply Hnp; [left|right]; exists x; rewrite in_app_iff; auto. }
    destruct (release_step _ _ _ _ _ _ HR2 S HP Hnp2 E2 He2) as (t3 & e3 & E3 & He3 & Hj3 & [[-> Hr]|[-> Hr]]).
    + exists t3, e2, n. ands; auto; [congruence|eapply ta_miss; eauto].
    + assert (Hdec : e_index e2 < e_size e2 \/ e_size e2 <= e_index e2) by lia.
      destruct Hdec as [Hlt|Hge].
      * exists t3. eexists. exists (Datatypes.S n). split; [exact E3|]. split; [exact He3|]. cbn. ands; auto; try congruence; try lia.
        eapply ta_hit; eauto. apply Hr. lia.
      * exists t3. eexists. exists n. split; [exact E3|]. split; [exact He3|]. cbn. ands; auto; try congruence; try lia.
        eapply ta_miss; eauto. rewrite Hr. lia.
Qed.

(** ** retries *)
Lemma retry_made_row c l c' a x : reachable O c -> step O c l c' -> retry_made l (cw c) (cw c') a x ->
  exists u t, find_task a (cw c) = Some u /\ find_task x (cw c) = None /\ find_task x (cw c') = Some t /\
    attempts_of t = attempts_of u + 1 /\ t_parent t = t_parent u /\ t_position t = t_position u /\ t_job t = t_job u.
Proof.
  intros HR S (o & t & -> & Ho & E & E' & Hat). destruct (effect_step _ _ _ _ HR S) as (_ & _ & HG).
  destruct HG as [HG|(_ & _ & [(i & Hr & _)|Hl])].
  - destruct HG as [HG _]. specialize (HG x). rewrite E, E' in HG. destruct HG as (_ & _ & [H0|(u & Hu & Eu & H)]); [lia|].
    exists u, t. assert (t_id u = a) by congruence. subst a. destruct H as (?&?&?&?). ands; auto.
  - apply (records_none _ _ _ _ Hr) in E. congruence.
  - apply (leaks_none _ _ _ Hl) in E. congruence.
Qed.
Lemma retry_edges c0 ls E c : initial c0 -> retry_log O c0 ls E c -> reachable O c /\
  forall a x, E a x -> exists u t, find_task a (cw c) = Some u /\ find_task x (cw c) = Some t /\ attempts_of t = attempts_of u + 1 /\
    t_parent t = t_parent u /\ t_position t = t_position u /\ t_job t = t_job u.
Proof.
  intros Hi H. induction H as [|c1 ls E c2 l c3 H IH S].
  - split; [exists c, []; split; [exact Hi|constructor]|contradiction].
  - destruct (IH Hi) as [HR HE]. split; [eapply reachable_step; eauto|].
    assert (Hkeep : forall i t, find_task i (cw c2) = Some t -> exists t', find_task i (cw c3) = Some t' /\ attempts_of t' = attempts_of t /\
      t_parent t' = t_parent t /\ t_position t' = t_position t /\ t_job t' = t_job t).
    { intros i t Et. destruct (step_row _ _ _ _ _ HR S Et) as (t' & Et' & Hd & Hat & _). exists t'.
      apply tdef_proj in Hd as (_&?&?&?&_). ands; auto. }
    intros a x [Hax|Hax].
    + destruct (HE a x Hax) as (u & t & Eu & Et & H1 & H2 & H3 & H4).
      destruct (Hkeep _ _ Eu) as (u' & Eu' & U1 & U2 & U3 & U4). destruct (Hkeep _ _ Et) as (t' & Et' & T1 & T2 & T3 & T4).
      exists u', t'. ands; auto; congruence || lia.
    + destruct (retry_made_row _ _ _ _ _ HR S Hax) as (u & t & Eu & _ & Et & H1 & H2 & H3 & H4).
      destruct (Hkeep _ _ Eu) as (u' & Eu' & U1 & U2 & U3 & U4). exists u', t. ands; auto; congruence || lia.
Qed.
Lemma chain_attempts c0 ls E c a n x : initial c0 -> retry_log O c0 ls E c -> retry_chain E a (S n) x ->
  exists s t, find_task a (cw c) = Some s /\ find_task x (cw c) = Some t /\ attempts_of t = attempts_of s + Z.of_nat (S n) /\
    t_parent t = t_parent s /\ t_position t = t_position s /\ t_job t = t_job s.
Proof.
  intros Hi HL Hc. destruct (retry_edges _ _ _ _ Hi HL) as [HR HE].
  revert x Hc. induction n as [|n IH]; intros x Hc; inversion Hc as [|? ? y ? Hc' Hyx]; subst.
  - inversion Hc'; subst. destruct (HE _ _ Hyx) as (u & t & Eu & Et & H1 & H2 & H3 & H4). exists u, t. ands; auto. 
  - destruct (IH _ Hc') as (s & u & Es & Eu & U1 & U2 & U3 & U4). destruct (HE _ _ Hyx) as (u2 & t & Eu2 & Et & H1 & H2 & H3 & H4).
    assert (u2 = u) by congruence. subst u2. exists s, t. ands; auto; congruence || lia.
Qed.

(** ** deletion times *)
Lemma deletion_step_l c l c' i j : reachable O c -> step O c l c' -> find_job i (cw c) = Some j ->
  exists j', find_job i (cw c') = Some j' /\ deletion_step O j j'.
Proof.
  intros HR S E. destruct (job_step_cases _ _ _ _ _ _ HR S E) as (j' & E' & _). exists j'. split; [exact E'|].
  destruct (effect_cases _ _ _ _ HR S) as [(o & Hq & _)|[(o & x & -> & Hq & Hx & _)|(o & -> & Hq & Hl)]].
  - destruct Hq as [_ Hq]. specialize (Hq i). rewrite E, E' in Hq. apply Hq.
  - destruct (records_job _ _ _ _ _ Hx E) as (j2 & E2 & Hc). assert (j2 = j') by congruence. subst j2. left.
    destruct Hc as [->|(u & u' & _ & _ & _ & _ & _ & [(_ & Ha)|(_ & Ha)])]; [auto| |rewrite Ha; auto].
    destruct Ha as (_ & _ & _ & Ha). rewrite Ha. auto.
  - destruct Hl as (Hl & _). rewrite Hl in E'. assert (j' = j) by congruence. subst. left. auto.
Qed.
Lemma deletion_new_l c l c' i j' : reachable O c -> step O c l c' -> find_job i (cw c) = None -> find_job i (cw c') = Some j' ->
  j_deleteat j' = None /\ j_state j' = JPending.
Proof.
  intros HR S E E'. destruct (job_created _ _ _ _ _ _ HR S E E') as (o & _ & H). destruct H as (?&_&_&_&_&_&?&_). auto.
Qed.
End Count.
