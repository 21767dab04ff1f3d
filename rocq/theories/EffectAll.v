(** The second layer, for every execution: what each step does to the tables. Proofs; the theorems are in PropsEffect.v. *)
From Verif Require Export EffectWalk StateProofs.
Open Scope string_scope.
Open Scope list_scope.
Open Scope Z_scope.

(** no question asked about completed jobs *)
Definition anyD : id -> string -> Prop := fun _ _ => True.

Lemma I2_empty D clk fs : I2 D (empty_world clk fs).
Proof. split; [cbn; discriminate|]. split; cbn; contradiction. Qed.
Lemma kn_report w t t' : kn w t -> worker_report t t' -> task_ok t' -> kn w t'.
Proof.
  intros Hk (R1&R2&R3&R4&R5&R6&R7&R8&R9&R10&R11&R12) Hok. apply (kn_alike _ t); auto.
  unfold alike, attempts_of, detached_of. rewrite R8, R11. auto 15.
Qed.
Lemma I2_emit D w m : Inv w -> I2 D w -> env_msg (w_hist w) m -> I2 D (w <| w_hist := w_hist w ++ [m] |>).
Proof.
  intros HI H2 He. pose proof (env_msg_ok _ _ HI He) as Hm.
  eapply (I2_tasks D w _ [m]); auto; (constructor; [|constructor]).
  - destruct He; cbn in Hm; auto; try (eapply kn_report; [|eassumption|apply Hm]; apply (proj1 (proj2 H2)) in H; exact H).
    apply (proj1 (proj2 H2)) in H; exact H.
  - pose proof He as He'. destruct He as [q t t' Hin Hq Hr Hs|q t t' Hin Hq Hr Hs|q t t' Hin Hq Hr Hs|q t t' Hin Hq Hr|q t Hin|n Hn]; cbn [wired]; auto.
    + ands; [discriminate| |]; intros; congruence.
    + ands; [discriminate| |].
      * intros _. right. destruct Hr as (_&_&_&_&_&_&Hr&_). rewrite Hr.
        destruct (proj2 (proj2 H2) _ Hin) as (Hw & _). rewrite (Hw Hq). exact Hq.
      * intros _ _. right. exists (w_hist w), []. auto.
    + ands; [discriminate| |]; intros; congruence.
    + destruct (proj2 (proj2 H2) _ Hin) as (_ & Hw & _). ands; [discriminate|exact Hw|discriminate].
Qed.

Section Inst.
Variable O : oracle.
Variable D : id -> string -> Prop.
Variable b : bool.

Lemma inst_msg w m : Kb D b w w -> I2 D w -> In m (w_hist w) ->
  wx (Kb D b) (I2 D) (Rb b) (Gb O b true (OMsg m)) w (deliver O (N.to_nat (w_fresh w)) m) (fun _ _ => True).
Proof.
  intros HK H2 Hin. eapply X_deliver; eauto; [apply (inv_hist _ (proj1 HK)); exact Hin|now apply (proj1 (proj2 H2))|now apply (proj2 (proj2 H2))].
Qed.
Lemma inst_env w c fs : I2 D w -> Kb D b w (w <| w_clock := c |> <| w_faults := fs |>) ->
  I2 D (w <| w_clock := c |> <| w_faults := fs |>) /\ Rb b w (w <| w_clock := c |> <| w_faults := fs |>).
Proof.
  intros H2 HK. split; [eapply (I2_tasks D w _ []); auto; cbn; now rewrite app_nil_r|].
  apply (K_R D); auto. now apply trel_same.
Qed.
Lemma inst_emit w m : I2 D w -> env_msg (w_hist w) m -> Kb D b w (w <| w_hist := w_hist w ++ [m] |>) ->
  I2 D (w <| w_hist := w_hist w ++ [m] |>) /\ Rb b w (w <| w_hist := w_hist w ++ [m] |>).
Proof. intros H2 He HK. split; [apply I2_emit; auto; apply HK|]. apply (K_R D); auto. now apply trel_same. Qed.

Definition cfg2 := cfgx (Kb D b) (I2 D) (Rb b) (Gb O b true).
Lemma cfg2_step c l c' : cfg2 c -> step O c l c' -> Kb D b (cw c) (cw c') ->
  cfg2 c' /\ Rb b (cw c) (cw c') /\
  match l with LOp o => Gb O b true o (cw c) (cw c') | _ => w_tasks (cw c') = w_tasks (cw c) /\ w_jobs (cw c') = w_jobs (cw c) end.
Proof.
  apply stepx; auto using Rb_refl, inst_msg, inst_env, inst_emit.
  - intros; eapply Rb_trans; eauto.
  - intros w o p _ E Ho. eapply X_api; eauto.
Qed.
Lemma cfg2_initial c : initial c -> cfg2 c.
Proof. apply initialx. apply I2_empty. Qed.

(** executions of [sizes_kept] steps, if [b] *)
Definition Pb (w w' : world) : Prop := (b = true -> nores w w') /\ seen D w'.
Lemma step_Kb c l c' : cfg_ok c -> step O c l c' -> Pb (cw c) (cw c') -> Kb D b (cw c) (cw c') /\ cfg_ok c'.
Proof.
  intros Hc S HP. destruct (lift_step O _ _ _ Hc S) as [Hc' HR]. split; [|exact Hc'].
  destruct HP. split; [apply Hc|]. split; [apply Hc'|]. auto.
Qed.
Definition both (c : config) : Prop := cfg_ok c /\ cfg2 c.
Lemma both_step c l c' : both c -> step O c l c' -> Pb (cw c) (cw c') ->
  both c' /\ Rb b (cw c) (cw c') /\
  match l with LOp o => Gb O b true o (cw c) (cw c') | _ => w_tasks (cw c') = w_tasks (cw c) /\ w_jobs (cw c') = w_jobs (cw c) end.
Proof.
  intros [H1 H2] S HP. destruct (step_Kb _ _ _ H1 S HP) as [HK H1']. destruct (cfg2_step _ _ _ H2 S HK) as (?&?&?).
  split; [split; assumption|auto].
Qed.
Lemma both_where c ls c' : both c -> exec_where O Pb c ls c' -> both c' /\ Rb b (cw c) (cw c').
Proof.
  intros H E. induction E as [|c1 ls c2 l c3 E IH S HP]; [auto using Rb_refl|]. destruct (IH H) as [H2 HR].
  destruct (both_step _ _ _ H2 S HP) as (?&?&_). split; [assumption|eapply Rb_trans; eauto].
Qed.
Lemma both_initial c : initial c -> both c.
Proof. intros H. split; [now apply cfg_initial|now apply cfg2_initial]. Qed.
End Inst.

Lemma exec_where_weaken O (P Q : world -> world -> Prop) c ls c' : (forall w w', P w w' -> Q w w') -> exec_where O P c ls c' -> exec_where O Q c ls c'.
Proof. intros H E. induction E; econstructor; eauto. Qed.
Lemma exec_where_exec O P c ls c' : exec_where O P c ls c' -> exec O c ls c'.
Proof. intros E. induction E; econstructor; eauto. Qed.
Lemma exec_exec_where O c ls c' : exec O c ls c' -> exec_where O (Pb anyD false) c ls c'.
Proof. intros E. induction E; econstructor; eauto. split; [discriminate|exact (fun _ _ _ _ => I)]. Qed.

Lemma reachable_both O c : reachable O c -> both O anyD false c.
Proof.
  intros (c0 & ls & Hi & E). apply exec_exec_where in E. eapply (both_where O anyD false); [|exact E]. now apply both_initial.
Qed.
Lemma where_both O c0 ls c : initial c0 -> exec_where O sizes_kept c0 ls c -> both O anyD true c.
Proof.
  intros Hi E. eapply (both_where O anyD true); [|eapply exec_where_weaken; [|exact E]]; [now apply both_initial|].
  intros w w' H; split; [intros _; exact H|exact (fun _ _ _ _ => I)].
Qed.

(** one step of any execution *)
Lemma effect_step O c l c' : reachable O c -> step O c l c' ->
  both O anyD false c' /\ Rb false (cw c) (cw c') /\
  match l with LOp o => Gb O false true o (cw c) (cw c') | _ => w_tasks (cw c') = w_tasks (cw c) /\ w_jobs (cw c') = w_jobs (cw c) end.
Proof. intros H S. apply (both_step O anyD); auto using reachable_both. split; [discriminate|exact (fun _ _ _ _ => I)]. Qed.

(** ** The three kinds of steps *)
Lemma effect_cases O c l c' : reachable O c -> step O c l c' ->
  (exists o, quiet O o (cw c) (cw c') /\ (l = LOp o \/ (w_tasks (cw c') = w_tasks (cw c) /\ w_jobs (cw c') = w_jobs (cw c)))) \/
  (exists o i, l = LOp o /\ from_queue QUEUE_COMPLETED o /\ records (cw c) (cw c') i /\ (as_reported o (cw c') i \/ filled false (cw c) i)) \/
  (exists o, l = LOp o /\ from_queue QUEUE_COMPLETED o /\ leaks (cw c) (cw c')).
Proof.
  intros HR S. destruct (effect_step _ _ _ _ HR S) as (_ & _ & H).
  assert (Hs : w_tasks (cw c') = w_tasks (cw c) /\ w_jobs (cw c') = w_jobs (cw c) ->
    exists o, quiet O o (cw c) (cw c') /\ (l = LOp o \/ (w_tasks (cw c') = w_tasks (cw c) /\ w_jobs (cw c') = w_jobs (cw c)))).
  { intros [E1 E2]. exists (OCancel noid). split; [now apply quiet_same|auto]. }
  destruct l; auto. destruct H as [H|(_ & Hq & [(i & H & Hi)|H])]; [left; eauto|right; left; eauto 10|right; right; eauto].
Qed.

Lemma recorded_count u u' : recorded_row u u' -> count_of u' = count_of u /\ width_of u' = width_of u /\ t_parent u' = t_parent u /\ t_each u' = t_each u /\ t_parallel u' = t_parallel u.
Proof. intros (_ & _ & E). unfold count_of, width_of. rewrite E. cbn. auto. Qed.

Lemma records_row w w' i k t : Inv w -> records w w' i -> find_task k w = Some t ->
  exists t', find_task k w' = Some t' /\
   ((k = i /\ recorded_row t t') \/
    (k <> i /\ exists u, find_task i w = Some u /\ t_parent u = k /\ count_of t' = count_of t + 1 /\ width_of t' = width_of t /\
       t' = t <| t_parallel := t_parallel t' |> <| t_each := t_each t' |>) \/
    (k <> i /\ t_state t = TCreated /\ t' = t <| t_state := TPending |> /\ exists u, find_task i w = Some u /\ t_parent u = t_parent t) \/
    (k <> i /\ t' = t /\ forall u, find_task i w = Some u -> t_parent u <> k)).
Proof.
  intros HI (u & u' & Eu & Eu' & Hr & Hc) Ek. destruct (N.eq_dec k i) as [->|Hn].
  { exists u'. split; [exact Eu'|]. left. split; [reflexivity|]. congruence. }
  pose proof (tfind_key _ _ _ _ Eu) as Hid. pose proof (tfind_key _ _ _ _ Ek) as Hidk.
  destruct Hc as [(Hp & j & j' & _ & _ & _ & Ho & _)|(Hp & p & p' & j & j' & rel & Ep & Ep' & Hne & Hcnt & Hw & Hpp & _ & _ & _ & _ & _ & Hrel & Ho & _)].
  - exists t. split; [rewrite Ho; auto; congruence|]. right. right. right. ands; auto.
    intros x Ex. assert (x = u) by congruence. subst x. rewrite Hp. intros E.
    pose proof (inv_task_fresh _ HI t (tfind_in _ _ _ _ Ek)). unfold noid in *. lia.
  - destruct (N.eq_dec k (t_parent u)) as [Hk|Hk].
    { rewrite Hk in Ek |- *. assert (t = p) by congruence. subst p. exists p'. split; [exact Ep'|]. right. left. split; [congruence|]. exists u. auto 10. }
    destruct rel as [x|].
    + destruct (N.eq_dec k x) as [->|Hx].
      * destruct Hrel as (_ & _ & ch & Ec & Hpar & Hst & Ec'). assert (ch = t) by congruence. subst ch.
        eexists. split; [exact Ec'|]. right. right. left. ands; auto. exists u. auto.
      * exists t. split; [rewrite Ho; auto; congruence|]. right. right. right. ands; auto. intros y Ey. congruence.
    + exists t. split; [rewrite Ho; auto; congruence|]. right. right. right. ands; auto. intros y Ey. congruence.
Qed.

Lemma records_none w w' i k : records w w' i -> find_task k w = None -> find_task k w' = None.
Proof.
  intros (u & u' & Eu & Eu' & Hr & Hc) Ek.
  destruct Hc as [(Hp & j & j' & _ & _ & _ & Ho & _)|(Hp & p & p' & j & j' & rel & Ep & Ep' & Hne & Hcnt & Hw & Hpp & _ & _ & _ & _ & _ & Hrel & Ho & _)].
  - rewrite Ho; [exact Ek|]. intros ->. pose proof (tfind_key _ _ _ _ Eu). congruence.
  - rewrite Ho; [exact Ek|..]; [intros ->; pose proof (tfind_key _ _ _ _ Eu); congruence|congruence|].
    destruct rel as [x|]; [|discriminate]. destruct Hrel as (_ & _ & ch & Ec & _). congruence.
Qed.
Lemma records_job w w' i k j : records w w' i -> find_job k w = Some j ->
  exists j', find_job k w' = Some j' /\
   (j' = j \/ exists u u', find_task i w = Some u /\ find_task i w' = Some u' /\ recorded_row u u' /\ t_job u = k /\
      context_after u' (j_context j) (j_context j') /\
      ((t_parent u = noid /\ advanced u' j j') \/ (t_parent u <> noid /\ j' = j <| j_context := j_context j' |>))).
Proof.
  intros (u & u' & Eu & Eu' & Hr & Hc) Ek.
  destruct Hc as [(Hp & x & x' & Ex & Ex' & Ha & _ & Ho)|(Hp & p & p' & x & x' & rel & Ep & Ep' & Hne & Hcnt & Hw & Hpp & Ex & Ex' & Hca & Hx & Ho & _)];
  (destruct (N.eq_dec k (t_job u)) as [->|Hn]; [|exists j; split; [rewrite Ho; auto|auto]]);
  assert (x = j) by congruence; subst x; exists x'; (split; [assumption|right]); exists u, u'; ands; auto.
  apply Ha.
Qed.
Lemma records_job_none w w' i k : records w w' i -> find_job k w = None -> find_job k w' = None.
Proof.
  intros (u & u' & Eu & Eu' & Hr & Hc) Ek.
  destruct Hc as [(Hp & x & x' & Ex & Ex' & Ha & _ & Ho)|(Hp & p & p' & x & x' & rel & Ep & Ep' & Hne & Hcnt & Hw & Hpp & Ex & Ex' & Hca & Hx & Ho & _)];
  (rewrite Ho; [exact Ek|congruence]).
Qed.
Lemma leaks_row w w' k t : leaks w w' -> find_task k w = Some t ->
  exists t', find_task k w' = Some t' /\ (t' = t \/ (t_state t = TCreated /\ t' = t <| t_state := TPending |>)).
Proof.
  intros (_ & x & ch & Ec & Hs & _ & Ec' & Ho) Ek. destruct (N.eq_dec k x) as [->|Hn].
  - assert (ch = t) by congruence. subst ch. eauto.
  - exists t. rewrite Ho; auto.
Qed.
Lemma leaks_none w w' k : leaks w w' -> find_task k w = None -> find_task k w' = None.
Proof. intros (_ & x & ch & Ec & Hs & _ & Ec' & Ho) Ek. rewrite Ho; [exact Ek|congruence]. Qed.

(** ** Refused completions (C05) *)
Lemma wx_anti {A} (K K' : world -> world -> Prop) I R (G G' : world -> world -> Prop) (p : prog A) Q : forall w0,
  (forall w w', K' w w' -> K w w') -> (forall w w', G w w' -> G' w w') -> wx K I R G w0 p Q -> wx K' I R G' w0 p Q.
Proof.
  induction p as [r|B f k IH]; cbn; intros w0 HK HG H; [exact H|].
  intros w Hr Hi Hk. destruct (H w Hr Hi (HK _ _ Hk)) as (H1 & H2 & H3 & H4). auto 10.
Qed.

Lemma tx_refused {A} t (k : unit -> act A) w w' r : ~ awaits_completion (t_id t) w ->
  a_with_tx (abind (a_update_task (t_id t) (complete_modify t)) k) w = (w', r) ->
  notok r /\ same w w' /\ w_hist w' = w_hist w.
Proof.
  intros Hna E. apply with_tx_cases in E as (w1 & r1 & Eb & Eh & Ef & Hcase). unfold abind in Eb.
  destruct (a_update_task (t_id t) (complete_modify t) (w <| w_auto := [] |>)) as [w2 r2] eqn:E2.
  apply upd_task_cases in E2 as (J2 & H2 & A2 & F2 & Hc2); [|apply noerr_complete]. cbn in J2, H2, A2, F2.
  destruct Hc2 as [[Hn T2]|(u & u' & [] & -> & Hu & Em & T2)].
  - assert (E1 : w1 = w2 /\ notok r1) by (destruct r2 as [|? [|]| |]; try contradiction; injection Eb as <- <-; auto).
    destruct E1 as [-> Hn1]. destruct Hcase as [(a & -> & _)|(T & J & Hx)]; [contradiction|].
    split; [auto|]. unfold same. rewrite T, J, A2, mark_pending_nil, Eh, H2. auto.
  - exfalso. apply Hna. exists u. split; [exact Hu|]. now apply complete_modify_cases in Em.
Qed.

Section Refused.
Variable O : oracle.
Variable i : id.
Definition Ki (w w' : world) : Prop := Kb anyD false w w' /\ ~ awaits_completion i w /\ ~ awaits_completion i w'.
(** threads that handle a completion of [i] are quiet *)
Definition Gi (o : origin) (w w' : world) : Prop := Gb O false true o w w' /\ (completes o i -> quiet O o w w').

Section Handler.
Variable o : origin.
Notation Wi := (wx Ki (I2 anyD) (Rb false) (Gb O false false o)).
Lemma X_refused_tx {A} t (k : unit -> act A) w0 (Q : world -> outcome A -> Prop) : t_id t = i -> (forall w r, Rb false w0 w -> notok r -> Q w r) ->
  Wi w0 (with_tx (abind (a_update_task (t_id t) (complete_modify t)) k)) Q.
Proof.
  intros Ht HE. apply wx_op. intros w HR HI (HK & Hna & _).
  match goal with |- context [a_with_tx ?b w] => destruct (a_with_tx b w) as [w' r] eqn:E end. cbn [fst snd] in *.
  apply tx_refused in E as (Hn & Hs & Hh); [|now rewrite Ht].
  assert (HR' : Rb false w w') by (apply (K_R anyD); auto; apply trel_same; apply Hs).
  split; [eapply (I2_tasks anyD w w' []); auto; [apply Hs|rewrite Hh; now rewrite app_nil_r]|].
  split; [exact HR'|]. split; [left; apply quiet_same; apply Hs|]. apply HE; [eapply Rb_trans; eauto|exact Hn].
Qed.
Lemma X_refused t fuel w0 : t_id t = i -> kn w0 t -> Wi w0 (completed_handler O fuel t) (QT t).
Proof.
  intros Ht Hk. unfold completed_handler. apply wx_bind. refine (wx_anti (Kb anyD false) Ki (I2 anyD) (Rb false) (Gb O false false o) _ _ _ _ (fun _ _ H => proj1 H) (fun _ _ H => H) _).
  apply X_now. intros w n HR.
  assert (H : Wi w (with_msg (t <| t_completed := Some n |>) (complete_task O fuel (t <| t_completed := Some n |>))) (QT t)).
  { assert (Hk1 : kn w (t <| t_completed := Some n |>)).
    { apply (kn_alike _ t); [eapply kn_R; eauto|unfold alike; auto 15|apply (kn_ok _ _ Hk)]. }
    unfold with_msg. apply wx_catch.
    match goal with |- wx _ _ _ _ _ ?p _ => assert (Hp : Wi w p QN) end.
    2:{ eapply wx_conseq; [apply Rb_refl|apply Rb_trans|exact Hp|]. intros w1 r HR1 Hr.
        destruct r as [a|e [m|]| |]; cbn in *; auto; [contradiction|]. split; [reflexivity|]. eapply kn_R; eauto. }
    destruct fuel as [|fuel]; cbn [complete_task]; change (t_parent (t <| t_completed := Some n |>)) with (t_parent t).
    - destruct (has_id (t_parent t)); [exact I|]. unfold complete_top, a_complete_top. apply wx_bind, X_refused_tx; [exact Ht|].
      intros w1 r _ Hn. destruct r as [|? [|]| |]; cbn in *; auto; contradiction.
    - destruct (has_id (t_parent t)).
      + apply wx_bind. refine (wx_anti (Kb anyD false) Ki (I2 anyD) (Rb false) (Gb O false false o) _ _ _ _ (fun _ _ H => proj1 H) (fun _ _ H => H) _). apply X_get_task.
        { intros w1 r _ Hn. destruct r as [|? [|]| |]; cbn in *; auto; contradiction. }
        intros w1 p HR1 Ep Hidp Hkp. apply wx_bind.
        destruct (t_parallel p); unfold a_complete_parallel, a_complete_each; (apply X_refused_tx; [exact Ht|]);
          intros w2 r _ Hn; destruct r as [|? [|]| |]; cbn in *; auto; contradiction.
      + unfold complete_top, a_complete_top. apply wx_bind, X_refused_tx; [exact Ht|].
        intros w1 r _ Hn. destruct r as [|? [|]| |]; cbn in *; auto; contradiction. }
  destruct (t_state t); try exact H; exact I.
Qed.
Lemma X_refused_delivery t fuel w0 : o = OMsg (MTask QUEUE_COMPLETED t) -> t_id t = i -> kn w0 t ->
  Wi w0 (deliver O fuel (MTask QUEUE_COMPLETED t)) (fun _ _ => True).
Proof.
  intros Ho Ht Hk. cbn [deliver]. rewrite (proj2 (String.eqb_neq QUEUE_COMPLETED QUEUE_PENDING)) by discriminate. rewrite String.eqb_refl.
  unfold task_wrapper. apply wx_catch. eapply wx_conseq; [apply Rb_refl|apply Rb_trans|apply X_refused; auto|].
  intros w r HR Hr. destruct r as [a|e m| |]; [exact I| |exact I|exact I]. cbn in Hr.
  assert (Hx : exists t', (match m with Some t' => t' | None => t end) = t' /\ t_id t' = t_id t /\ kn w t').
  { destruct m as [t'|]; [exists t'; tauto|exists t; ands; auto; eapply kn_R; eauto]. }
  destruct Hx as (t' & -> & Hid & Hk').
  refine (wx_anti (Kb anyD false) Ki (I2 anyD) (Rb false) (Gb O false false o) _ _ _ _ (fun _ _ H => proj1 H) (fun _ _ H => H) _).
  apply X_bind, X_now. intros w1 n HR1.
  eapply X_conseq; [apply X_error|auto]; [cbn; rewrite Ho; cbn; congruence|].
  apply (kn_alike _ t'); [eapply kn_R; eauto|unfold alike; auto 15|apply (kn_ok _ _ Hk')].
Qed.
End Handler.

Lemma refused_step c l c' : cfgx Ki (I2 anyD) (Rb false) Gi c -> step O c l c' -> Ki (cw c) (cw c') ->
  cfgx Ki (I2 anyD) (Rb false) Gi c' /\ Rb false (cw c) (cw c') /\
  match l with LOp o => Gi o (cw c) (cw c') | _ => w_tasks (cw c') = w_tasks (cw c) /\ w_jobs (cw c') = w_jobs (cw c) end.
Proof.
  apply stepx.
  - apply Rb_refl.
  - apply Rb_trans.
  - intros w m (HK & _) H2 Hin. pose proof (inst_msg O anyD false w m HK H2 Hin) as H.
    assert (Hgen : (completes (OMsg m) i -> False) -> wx Ki (I2 anyD) (Rb false) (Gi (OMsg m)) w (deliver O (N.to_nat (w_fresh w)) m) (fun _ _ => True)).
    { intros Hno. eapply wx_anti; [| |exact H]; [intros ? ? HH; apply HH|]. intros x y HG. split; [exact HG|]. tauto. }
    destruct m as [q t|j|tp j|t|n].
    2,3,4,5: apply Hgen; intros [(x & Hx) Ht]; discriminate.
    destruct (String.eqb_spec q QUEUE_COMPLETED) as [->|Hq]; [|apply Hgen; intros [(x & Hx) Ht]; congruence].
    destruct (N.eq_dec (t_id t) i) as [Ht|Ht]; [|apply Hgen; intros [_ Hx]; cbn in Hx; congruence].
    eapply wx_anti; [| |apply (X_refused_delivery (OMsg (MTask QUEUE_COMPLETED t)) t); auto; apply (proj1 (proj2 H2)) in Hin; exact Hin]; [auto|].
    intros x y [HG|(D & _)]; [|discriminate]. split; [left; exact HG|auto].
  - intros w o p HI E Ho. eapply wx_anti; [| |eapply (X_api O anyD false true); eauto]; [intros ? ? HH; apply HH|]. intros x y HG. split; [exact HG|].
    intros [(t & ->) _]. discriminate E.
  - intros w cl fs HI (HK & _). now apply inst_env.
  - intros w m HI He (HK & _). now apply inst_emit.
Qed.
Lemma refused_start c : both O anyD false c -> (forall o p, In (o, p) (cthreads c) -> ~ completes o i) -> cfgx Ki (I2 anyD) (Rb false) Gi c.
Proof.
  intros (_ & HI & Ht) Hno. split; [exact HI|]. rewrite Forall_forall in *. intros [o p] Hin. specialize (Ht _ Hin).
  unfold thx in *. cbn [fst snd] in *. eapply wx_anti; [| |exact Ht]; [intros ? ? HH; apply HH|]. intros w w' HG. split; [exact HG|].
  intros Hc. exfalso. eapply Hno; eauto.
Qed.
End Refused.
