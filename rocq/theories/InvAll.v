(** All handlers preserve the invariant; lifting to machine executions. *)
From Verif Require Export InvTx.
Open Scope string_scope.
Open Scope list_scope.
Open Scope Z_scope.

Lemma known_parent w t : Inv w -> task_known w t -> t_parent t <> noid ->
  (t_parent t < t_id t)%N /\ exists p, find_task (t_parent t) w = Some p /\ t_job p = t_job t /\ composite p = true.
Proof.
  intros HI (u & E & Ha) Hn. destruct Ha as (H1&H2&H3&_).
  pose proof (tfind_in _ _ _ _ E) as Hin. destruct (inv_tasks _ HI _ Hin) as (_&_&Hp&_).
  unfold parent_known in Hp. rewrite H3, H1, H2 in Hp. auto.
Qed.
Lemma known_parent_known w t t' : Inv w -> task_known w t -> t_parent t' = t_parent t -> t_job t' = t_job t ->
  (t_id t < t_id t')%N -> parent_known w t'.
Proof.
  intros HI Hk Hp Hj Hlt Hn. rewrite Hp in *. destruct (known_parent _ _ HI Hk Hn) as (H1 & p & ?&?&?).
  split; [lia|]. exists p. ands; auto; congruence.
Qed.

Section Bodies.
Variable o : origin.
Hypothesis Hq : from_queue QUEUE_COMPLETED o.
Notation TI := (TI o).
Notation txok := (txok o).

Lemma TI_row b w0 w i t : TI b w0 w -> find_task i w0 = Some t -> exists t', find_task i w = Some t' /\ tx_step o t t'.
Proof.
  intros HT E. pose proof (ti_tasks _ _ _ _ HT i) as H. rewrite !find_task_t in *. rewrite E in H.
  destruct (tfind t_id i (w_tasks w)); [eauto|contradiction].
Qed.
Lemma TI_row_back b w0 w i t' : TI b w0 w -> find_task i w = Some t' -> exists t, find_task i w0 = Some t /\ tx_step o t t'.
Proof.
  intros HT E. pose proof (ti_tasks _ _ _ _ HT i) as H. rewrite !find_task_t in *. rewrite E in H.
  destruct (tfind t_id i (w_tasks w0)); [eauto|contradiction].
Qed.

Lemma complete_modify_ok t u :
  t_job u = job_of o -> t_state t = TCompleted \/ t_state t = TSkipped -> task_ok u ->
  match complete_modify t u with
  | Ok (u', a) => task_ok u' /\ tx_step o u u' /\ (t_state u' = TCompleted \/ t_state u' = TSkipped)
  | Err _ None => True
  | _ => False
  end.
Proof.
  intros Hj Hs Hok. unfold complete_modify. destruct (completable (t_state u)) eqn:E; [|exact I].
  ands; auto. unfold tx_step; cbn. ands; auto; congruence.
Qed.

(** The task's own row. *)
Lemma txok_complete_row t w0 (Q : bool -> world -> unit -> Prop) :
  Inv w0 -> task_known w0 t -> t_job t = job_of o -> t_state t = TCompleted \/ t_state t = TSkipped ->
  (forall w, TI false w0 w -> Q false w tt) ->
  txok (a_update_task (t_id t) (complete_modify t)) w0 false w0 Q.
Proof.
  intros HI Hk Hj Hs HQ. apply txok_update_task. intros u w' HT E1 E2 Ef Hid Hok.
  pose proof (task_known_id _ _ _ Hk Ef) as Ha.
  assert (Hju : t_job u = job_of o) by (destruct Ha as (_&?&_); congruence).
  pose proof (complete_modify_ok t u Hju Hs Hok) as Hc.
  destruct (complete_modify t u) as [[u' []]|e [m|]| |]; auto.
  destruct Hc as (Hok' & Hst & _). ands; auto. apply HQ.
  eapply TI_put; eauto. rewrite Hid. unfold find_task in *. now rewrite E1.
Qed.

Lemma txok_publish m w0 b w (Q : bool -> world -> unit -> Prop) :
  (forall w', TI b w0 w' -> w_tasks w' = w_tasks w -> w_jobs w' = w_jobs w -> msg_ok w0 m /\ forall w2, w_tasks w2 = w_tasks w' -> Q b w2 tt) ->
  txok (a_publish m) w0 b w Q.
Proof.
  intros H. unfold a_publish. apply txok_faulty. intros w' E1 E2 HT _. destruct (H w' HT E1 E2) as (Hm & HQ).
  exists b. cbn [fst snd]. split; [|apply HQ; reflexivity].
  destruct HT as [A B C D E F G K]. constructor; cbn; auto.
  - eapply inv_update; [exact B|..]; cbn; auto; try apply B.
    + apply rely_same; cbn; auto; lia.
    + intros x Hin. apply in_app_or in Hin as [?|[<-|[]]]; auto. right.
      eapply msg_ok_rely; [|exact Hm]. eapply rely_trans; [exact C|]. apply rely_same; cbn; auto; lia.
  - eapply rely_trans; [exact C|]. apply rely_same; cbn; auto; lia.
  - intros x Hin. apply in_app_or in Hin as [?|[<-|[]]]; auto.
Qed.

Lemma txok_mark_auto i w0 b w (Q : bool -> world -> unit -> Prop) :
  (exists t, find_task i w0 = Some t /\ t_state t = TCreated /\ t_job t = job_of o) ->
  (forall w2, w_tasks w2 = w_tasks w -> TI b w0 w2 -> Q b w2 tt) ->
  txok (a_mark_auto i) w0 b w Q.
Proof.
  intros Ht HQ HT. exists b. cbn [a_mark_auto fst snd].
  assert (HT' : TI b w0 (w <| w_auto := i :: w_auto w |>)).
  { destruct HT as [A B C D E F G K]. constructor; cbn; auto. }
  split; auto.
Qed.

Lemma txok_get_next pid w0 b w (Q : bool -> world -> task -> Prop) :
  (forall w' nx, TI b w0 w' -> w_tasks w' = w_tasks w -> find_task (t_id nx) w' = Some nx -> t_parent nx = pid -> t_state nx = TCreated ->
     Q b w' nx) -> txok (a_get_next pid) w0 b w Q.
Proof.
  intros H. unfold a_get_next. apply txok_faulty. intros w' E1 E2 HT _. exists b.
  destruct (next_created pid w') as [nx|] eqn:E; cbn [fst snd]; [|auto].
  split; [exact HT|]. unfold next_created in E. apply find_some in E as [Hin Hb].
  apply andb_true_iff in Hb as [B1 B2]. apply N.eqb_eq in B1. apply H; auto.
  - rewrite find_task_t. apply tfind_nodup; [|exact Hin]. apply (inv_task_ids _ (ti_inv _ _ _ _ HT)).
  - destruct (t_state nx); easy.
Qed.

Lemma txok_release_next u w0 b w (Q : bool -> world -> unit -> Prop) :
  TI b w0 w -> t_job u = job_of o -> t_id u <> noid -> find_task (t_id u) w = Some u ->
  (forall w', find_task (t_id u) w' = Some u -> Q b w' tt) ->
  txok (a_release_next (t_id u)) w0 b w Q.
Proof.
  intros HT0 Hju Hnz Hu HQ. unfold a_release_next. apply txok_bind, txok_get_next.
  intros w1 nx HT1 E1 Hnx Hpar Hst.
  assert (Hrow : Inv (w1 <| w_auto := [] |>)) by apply HT1.
  pose proof (tfind_in _ _ _ _ Hnx) as Hin.
  destruct (inv_tasks _ Hrow nx Hin) as (Hok & _ & Hp & _).
  assert (Hnn : t_parent nx <> noid) by congruence.
  destruct (Hp Hnn) as (Hlt & p & Ep & Hjp & _).
  assert (Hu1 : find_task (t_id u) w1 = Some u) by (unfold find_task in *; now rewrite E1).
  assert (Hpu : p = u).
  { rewrite Hpar in Ep. unfold find_task in Ep, Hu1. cbn in Ep. congruence. }
  subst p.
  destruct (TI_row_back _ _ _ _ _ HT1 Hnx) as (x & Ex & Hx).
  assert (Hxs : t_state x = TCreated).
  { destruct Hx as (_&_&_&_&[(X&_)|[(_&X&_)|(_&[X|X])]]); congruence. }
  apply txok_bind, txok_update_task.
  intros n2 w2 HT2 E2 _ Ef _ Hok2. assert (n2 = nx) by congruence. subst n2. cbn [modi].
  assert (Hs2 : tx_step o nx (nx <| t_state := TPending |>)).
  { unfold tx_step; cbn. rewrite Hst. ands; auto; try congruence. right; left; auto. }
  ands; auto.
  apply txok_bind, txok_mark_auto.
  { exists x. ands; auto. destruct Hx as (Hd&_). apply tdef_proj in Hd. intuition congruence. }
  intros w3 E3 HT3. apply txok_publish. intros w4 HT4 E4 _. split.
  - cbn. split; [exact Hok|]. exists x. split; [exact Ex|]. destruct Hx as (Hd&_). apply tdef_proj in Hd.
    destruct Hd as (?&?&?&?&?&?&?&?&?&?). unfold about; cbn. ands; congruence.
  - intros w5 E5. apply HQ. rewrite find_task_t, E5, E4, E3.
    change (tfind t_id (t_id u) (tput t_id (nx <| t_state := TPending |>) (w_tasks w2)) = Some u).
    rewrite tfind_put_other; [|cbn; rewrite Hpar in Hlt; lia].
    unfold find_task in Hu1. rewrite E2. exact Hu1.
Qed.

Lemma faulty_unfold {A} (f : act A) : faulty f = faulty f. Proof. reflexivity. Qed.

Lemma txok_bump_each pid w0 w (Q : bool -> world -> bool -> Prop) :
  Inv w0 -> (exists p, find_task pid w0 = Some p /\ t_job p = job_of o /\ is_some (t_each p) = true) ->
  (forall w' l, TI false w0 w' -> Q false w' l) ->
  txok (a_bump_each pid) w0 false w Q.
Proof.
  intros HI (p & Ep & Hjp & Hep) HQ. unfold a_bump_each. apply txok_faulty. intros w1 E1 E2 HT1 _.
  destruct (TI_row _ _ _ _ _ HT1 Ep) as (u & Eu & Hs). rewrite Eu.
  assert (Hid : t_id u = pid) by (eapply tfind_key; exact Eu).
  pose proof (tfind_in _ _ _ _ Eu) as Hin.
  destruct (inv_tasks _ (ti_inv _ _ _ _ HT1) u Hin) as (Hok & _).
  assert (Hnz : t_id u <> noid) by (pose proof (inv_task_fresh _ (ti_inv _ _ _ _ HT1) u Hin); unfold noid; lia).
  assert (Hju : t_job u = job_of o /\ is_some (t_each u) = true).
  { destruct Hs as (Hd&_). apply tdef_proj in Hd. intuition congruence. }
  destruct Hju as [Hju Heu]. destruct (t_each u) as [e|] eqn:Ee; [|discriminate].
  set (rel := (negb _ && _ && _)%bool). set (last := (e_size e <=? e_completions e + 1)).
  assert (Hrel : txok (if rel then a_release_next (t_id u) else aret tt) w0 false w1
            (fun b w' _ => b = false /\ find_task (t_id u) w' = Some u)).
  { destruct rel; [apply txok_release_next|apply txok_ret]; auto; rewrite ?Hid; auto. }
  destruct (Hrel HT1) as (b' & HT' & Hr). destruct ((if rel then a_release_next (t_id u) else aret tt) w1) as [w' r]. cbn [fst snd] in *.
  destruct r as [[]|er [m|]| |]; try contradiction; cbn [fst snd]; [|exists b'; auto].
  destruct Hr as [-> Hf].
  match goal with |- context [put_task ?x _] => set (u' := x) end.
  assert (HT2 : TI false w0 (w' <| w_tasks := put_task u' (w_tasks w') |>)).
  { apply (TI_put _ _ _ _ u); auto.
    - unfold tx_step, u'; cbn. ands; auto; try congruence.
      destruct u, e; cbn in *; subst; reflexivity.
    - destruct Hok as (?&?&?&Hx&?). rewrite Ee in Hx. unfold task_ok, u'; cbn. ands; auto; lia || tauto. }
  exists false. split; auto.
Qed.

Lemma txok_bump_parallel pid w0 w (Q : bool -> world -> bool -> Prop) :
  Inv w0 -> TI false w0 w -> (exists p, find_task pid w0 = Some p /\ t_job p = job_of o /\ is_some (t_parallel p) = true) ->
  (forall w' l, TI false w0 w' -> Q false w' l) ->
  txok (a_update_task pid bump_parallel) w0 false w Q.
Proof.
  intros HI HT0 (p & Ep & Hjp & Hep) HQ. apply txok_update_task. intros u w1 HT1 E1 _ Eu Hid Hok.
  destruct (TI_row _ _ _ _ _ HT0 Ep) as (u2 & Eu2 & Hs). assert (u2 = u) by congruence. subst u2.
  assert (Hju : t_job u = job_of o /\ is_some (t_parallel u) = true).
  { destruct Hs as (Hd&_). apply tdef_proj in Hd. intuition congruence. }
  destruct Hju as [Hju Heu]. unfold bump_parallel. destruct (t_parallel u) as [e|] eqn:Ee; [|discriminate].
  match goal with |- task_ok ?x /\ _ => set (u' := x) end.
  assert (Hs' : tx_step o u u').
  { unfold tx_step, u'; cbn. ands; auto; try congruence.
    destruct u, e; cbn in *; subst; reflexivity. }
  assert (Hok' : task_ok u').
  { destruct Hok as (?&?&Hx&?&?). rewrite Ee in Hx. unfold task_ok, u'; cbn. ands; auto; lia || tauto. }
  ands; auto. apply HQ. eapply TI_put; eauto. unfold find_task in *. rewrite E1, Hid. exact Eu.
Qed.

Lemma txok_put_context t w0 w (Q : bool -> world -> unit -> Prop) :
  t_job t = job_of o -> (forall b w', Q b w' tt) -> txok (a_put_context t) w0 false w Q.
Proof.
  intros Hj HQ. unfold a_put_context. destruct (_ && _)%bool; [|apply txok_ret; auto].
  apply txok_update_job. intros u w' HT E Hid Hok. cbn [modi]. ands; auto.
  - unfold jdef; cbn. f_equal. unfold ctx_put. destruct (_ && _)%bool; reflexivity.
  - unfold job_step; cbn. ands; auto; try congruence.
    unfold jdef; cbn. f_equal. unfold ctx_put. destruct (_ && _)%bool; reflexivity.
Qed.

Lemma txok_complete_each t w0 (Q : bool -> world -> bool -> Prop) :
  Inv w0 -> task_known w0 t -> t_job t = job_of o -> t_state t = TCompleted \/ t_state t = TSkipped ->
  (exists p, find_task (t_parent t) w0 = Some p /\ t_job p = job_of o /\ is_some (t_each p) = true) ->
  (forall b w l, Q b w l) ->
  txok (a_complete_each t) w0 false w0 Q.
Proof.
  intros HI Hk Hj Hs Hp HQ. unfold a_complete_each. apply txok_bind, txok_complete_row; auto.
  intros w HT. apply txok_bind, txok_bump_each; auto. intros w' l HT'.
  apply txok_bind, txok_put_context; auto. intros b w2. apply txok_ret, HQ.
Qed.
Lemma txok_complete_parallel t w0 (Q : bool -> world -> bool -> Prop) :
  Inv w0 -> task_known w0 t -> t_job t = job_of o -> t_state t = TCompleted \/ t_state t = TSkipped ->
  (exists p, find_task (t_parent t) w0 = Some p /\ t_job p = job_of o /\ is_some (t_parallel p) = true) ->
  (forall b w l, Q b w l) ->
  txok (a_complete_parallel t) w0 false w0 Q.
Proof.
  intros HI Hk Hj Hs Hp HQ. unfold a_complete_parallel. apply txok_bind, txok_complete_row; auto.
  intros w HT. apply txok_bind, txok_bump_parallel; auto. intros w' l HT'.
  apply txok_bind, txok_put_context; auto. intros b w2. apply txok_ret, HQ.
Qed.

Lemma txok_complete_top t w0 (Q : bool -> world -> unit -> Prop) :
  Inv w0 -> task_known w0 t -> t_job t = job_of o -> t_state t = TCompleted \/ t_state t = TSkipped ->
  (forall b w j, find_job (t_job t) w = Some j -> 1 <= j_position j -> Q b w tt) ->
  txok (a_complete_top t) w0 false w0 Q.
Proof.
  intros HI Hk Hj Hs HQ. unfold a_complete_top. apply txok_bind, txok_complete_row; auto.
  intros w HT. apply txok_update_job. intros u w' HT' E Hid Hok. unfold advance_job.
  destruct (j_taskcount u =? 0); [exact I|].
  assert (Hd : jdef (u <| j_progress := round_div (j_position u * 10000) (j_taskcount u) |>
             <| j_position := j_position u + 1 |> <| j_context := ctx_put t (j_context u) |>) = jdef u).
  { unfold ctx_put. destruct (_ && _)%bool; reflexivity. }
  split; [exact Hd|]. split; [|split].
  - destruct Hok as (?&?&?&?&?&?). unfold job_ok; cbn. ands; auto; lia.
  - unfold job_step. split; [exact Hd|]. cbn. ands; auto; try congruence. 
  - eapply HQ; [|shelve]. unfold find_job; cbn. rewrite <- Hid.
    match goal with |- context [put_job ?x _] => change (j_id u) with (j_id x) end.
    eapply (tfind_put_same j_id). cbn. pose proof (ti_jobs _ _ _ _ HT') as Hjs. cbn in Hjs. rewrite Hjs.
    rewrite Hid. exact E.
    Unshelve. cbn. destruct Hok as (_&_&_&_&_&?). lia.
Qed.
End Bodies.
