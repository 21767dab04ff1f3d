(** The completion transaction: reasoning inside [a_with_tx], including rollback. *)
From Verif Require Export InvSched.
Open Scope string_scope.
Open Scope list_scope.
Open Scope Z_scope.

Section Tx.
Variable o : origin.
Notation W := (wp Inv rely (guarantee o)).

(** What a transaction may do to one task row (transitive). *)
Definition tx_step (t t' : task) : Prop :=
  tdef t' = tdef t /\ (t_job t <> job_of o -> t' = t) /\ t_error t' = t_error t /\ t_failed t' = t_failed t /\
  ((t_state t' = t_state t /\ t_result t' = t_result t /\ t_completed t' = t_completed t) \/
   (t_state t = TCreated /\ t_state t' = TPending /\ t_result t' = t_result t /\ t_completed t' = t_completed t) \/
   (completable (t_state t) = true /\ (t_state t' = TCompleted \/ t_state t' = TSkipped))).

Lemma tx_step_refl t : tx_step t t.
Proof. unfold tx_step. auto 10. Qed.
Lemma tx_step_trans a b c : tx_step a b -> tx_step b c -> tx_step a c.
Proof.
  intros (A1&A2&A3&A4&A5) (B1&B2&B3&B4&B5). unfold tx_step.
  assert (Hj : t_job b = t_job a) by (now apply tdef_proj in A1). ands; try congruence.
  - intros Hn. specialize (A2 Hn). subst b. auto.
  - destruct A5 as [(X1&X2&X3)|[(X1&X2&X3&X4)|(X1&X2)]], B5 as [(Y1&Y2&Y3)|[(Y1&Y2&Y3&Y4)|(Y1&Y2)]];
      rewrite ?X1, ?X2, ?Y1, ?Y2 in *; cbn in *; try discriminate.
    + left. ands; congruence.
    + right; left. ands; congruence.
    + right; right. auto.
    + right; left. ands; congruence.
    + right; right. split; [auto|]. intuition congruence.
    + right; right. intuition congruence.
    + right; right. intuition congruence.
Qed.
Lemma tx_step_task_step t t' : from_queue QUEUE_COMPLETED o -> tx_step t t' -> task_step o t t'.
Proof.
  intros Hq (A1&A2&A3&A4&A5). unfold task_step. ands; auto.
  - destruct A5 as [(X1&X2&X3)|[(X1&X2&X3&X4)|(X1&X2)]]; auto.
    + right. rewrite X1, X2. now apply te_release.
    + right. apply te_complete; auto. destruct (t_state t); cbn in X1; auto; discriminate.
  - destruct A5 as [(X1&X2&X3)|[(X1&X2&X3&X4)|(X1&X2)]]; auto.
    right. ands; auto. destruct (t_state t); cbn in X1; auto; discriminate.
Qed.

Record TI (b : bool) (w0 w : world) : Prop := {
  ti_tasks : trel t_id tx_step (fun _ => False) (w_tasks w0) (w_tasks w);
  ti_inv : Inv (w <| w_auto := [] |>);
  ti_rely : rely w0 w;
  ti_jobs : if b then trel j_id (job_step o) (fun _ => False) (w_jobs w0) (w_jobs w) else w_jobs w = w_jobs w0;
  ti_hist : forall m, In m (w_hist w) -> In m (w_hist w0) \/ msg_ok w0 m;
  ti_nodes : w_nodes w = w_nodes w0;
  ti_fresh : w_fresh w = w_fresh w0;
  ti_auto : Forall (fun i => exists t, find_task i w0 = Some t /\ t_state t = TCreated /\ t_job t = job_of o) (w_auto w)
}.

Definition txok {A} (f : act A) (w0 : world) (b : bool) (w : world) (Q : bool -> world -> A -> Prop) : Prop :=
  TI b w0 w -> exists b', TI b' w0 (fst (f w)) /\
    match snd (f w) with Ok a => Q b' (fst (f w)) a | Err _ None => True | _ => False end.

Lemma txok_bind {A B} (f : act A) (g : A -> act B) w0 b w Q :
  txok f w0 b w (fun b' w' a => txok (g a) w0 b' w' Q) -> txok (abind f g) w0 b w Q.
Proof.
  unfold txok, abind. intros H HT. destruct (H HT) as (b' & HT' & Hr).
  destruct (f w) as [w' r]. cbn [fst snd] in *. destruct r as [a|e [m|]| |]; try contradiction; eauto.
Qed.
Lemma txok_ret {A} (a : A) w0 b w (Q : bool -> world -> A -> Prop) : Q b w a -> txok (aret a) w0 b w Q.
Proof. unfold txok; cbn. eauto. Qed.

Lemma TI_same b w0 w w' : TI b w0 w -> w_tasks w' = w_tasks w -> w_jobs w' = w_jobs w -> w_nodes w' = w_nodes w ->
  w_hist w' = w_hist w -> w_fresh w' = w_fresh w -> w_auto w' = w_auto w -> TI b w0 w'.
Proof.
  intros [A B C D E F G H] E1 E2 E3 E4 E5 E6. constructor; rewrite ?E1, ?E2, ?E3, ?E4, ?E5, ?E6; auto.
  - eapply inv_same; [exact B|..]; cbn; auto. lia.
  - eapply rely_trans; [exact C|]. apply rely_same; auto. lia.
Qed.
Lemma txok_faulty {A} (f : act A) w0 b w (Q : bool -> world -> A -> Prop) :
  (forall w', w_tasks w' = w_tasks w -> w_jobs w' = w_jobs w -> TI b w0 w' -> txok f w0 b w' Q) -> txok (faulty f) w0 b w Q.
Proof.
  unfold txok, faulty. intros H HT. destruct (w_faults w) as [|[] r] eqn:Ef.
  - apply H; auto.
  - exists b. cbn. split; [|exact I]. eapply TI_same; eauto; reflexivity.
  - assert (HT' : TI b w0 (w <| w_faults := r |>)) by (eapply TI_same; eauto; reflexivity).
    apply H; auto.
Qed.

Lemma TI_put b w0 w u u' :
  TI b w0 w -> find_task (t_id u) w = Some u -> tx_step u u' -> task_ok u' ->
  TI b w0 (w <| w_tasks := put_task u' (w_tasks w) |>).
Proof.
  intros [A B C D E F G H] Ef Hs Hok.
  assert (Hd : tdef u' = tdef u) by apply Hs.
  destruct (inv_put_task _ _ _ B Ef Hd Hok) as [HI HR].
  constructor; cbn; auto.
  - eapply trel_trans; [exact tx_step_trans|cbn; auto|exact A|].
    eapply trel_put; eauto using tx_step_refl. now apply tdef_proj in Hd.
  - eapply rely_trans; [exact C|]. exact HR.
Qed.

Lemma txok_update_task {A} i (modify : task -> outcome (task * A)) w0 b w (Q : bool -> world -> A -> Prop) :
  (forall u w', TI b w0 w' -> w_tasks w' = w_tasks w -> w_jobs w' = w_jobs w -> find_task i w = Some u -> t_id u = i -> task_ok u ->
     match modify u with
     | Ok (u', a) => task_ok u' /\ tx_step u u' /\ Q b (w' <| w_tasks := put_task u' (w_tasks w') |>) a
     | Err _ None => True
     | _ => False
     end) -> txok (a_update_task i modify) w0 b w Q.
Proof.
  intros H. unfold a_update_task. apply txok_faulty. intros w' E1 E2 HT' _.
  destruct (find_task i w') as [u|] eqn:Ef; [|exists b; cbn; auto].
  assert (Hid : t_id u = i) by (eapply tfind_key; exact Ef).
  assert (Hok : task_ok u).
  { pose proof (ti_inv _ _ _ HT') as HI. apply (inv_tasks _ HI). cbn. eapply tfind_in; exact Ef. }
  assert (Ef' : find_task i w = Some u) by (unfold find_task in *; now rewrite <- E1).
  specialize (H u w' HT' E1 E2 Ef' Hid Hok).
  destruct (modify u) as [[u' a]|e [m|]| |]; try contradiction; cbn [fst snd]; [|exists b; auto].
  destruct H as (Hok' & Hs & HQ). exists b. split; [|exact HQ].
  subst i. eapply TI_put; eauto.
Qed.

Lemma txok_update_job {A} i (modify : job -> outcome (job * A)) w0 w (Q : bool -> world -> A -> Prop) :
  (forall u w', TI false w0 w' -> find_job i w0 = Some u -> j_id u = i -> job_ok u ->
     match modify u with
     | Ok (u', a) => jdef u' = jdef u /\ job_ok u' /\ job_step o u u' /\
         Q true (w' <| w_jobs := put_job u' (w_jobs w') |>) a
     | Err _ None => True
     | _ => False
     end) -> txok (a_update_job i modify) w0 false w Q.
Proof.
  intros H. unfold a_update_job. apply txok_faulty. intros w' E1 E2 HT' _.
  destruct (find_job i w') as [u|] eqn:Ef; [|exists false; cbn; auto].
  assert (Hid : j_id u = i) by (eapply tfind_key; exact Ef).
  assert (Hok : job_ok u).
  { pose proof (ti_inv _ _ _ HT') as HI. apply (inv_jobs _ HI). cbn. eapply tfind_in; exact Ef. }
  assert (Ef' : find_job i w0 = Some u) by (unfold find_job in *; pose proof (ti_jobs _ _ _ HT'); cbn in *; congruence).
  specialize (H u w' HT' Ef' Hid Hok).
  destruct (modify u) as [[u' a]|e [m|]| |]; try contradiction; cbn [fst snd]; [|exists false; auto].
  destruct H as (Hd & Hok' & Hs & HQ). exists true. split; [|exact HQ]. subst i.
  destruct HT' as [A1 B C D E F G H].
  destruct (inv_put_job _ _ _ B Ef Hd Hok' (job_step_pos _ _ _ Hs)) as [HI HR].
  constructor; cbn; auto.
  - eapply rely_trans; [exact C|]. exact HR.
  - cbn in D. rewrite D. eapply trel_put; eauto using job_step_refl. now apply jdef_proj in Hd.
Qed.

(** mark_pending *)
Lemma mark_pending_find l i ts : tfind t_id i (mark_pending l ts) =
  match tfind t_id i ts with
  | Some t => Some (if existsb (N.eqb (t_id t)) l then t <| t_state := TPending |> else t)
  | None => None end.
Proof.
  unfold tfind, mark_pending. induction ts as [|t r IH]; cbn; [easy|].
  destruct (existsb (N.eqb (t_id t)) l) eqn:E; cbn; destruct (N.eqb (t_id t) i); auto; rewrite E; auto.
Qed.
Lemma mark_pending_ids l ts : map t_id (mark_pending l ts) = map t_id ts.
Proof.
  unfold mark_pending. rewrite map_map. apply map_ext. intros t. destruct (existsb _ _); reflexivity.
Qed.
Lemma mark_pending_in l ts t : In t (mark_pending l ts) ->
  exists u, In u ts /\ (t = u \/ t = u <| t_state := TPending |>).
Proof.
  unfold mark_pending. rewrite in_map_iff. intros (u & E & Hin). exists u.
  destruct (existsb _ _); subst; auto.
Qed.

Lemma rollback_ok w w1 b :
  from_queue QUEUE_COMPLETED o -> Inv w -> TI b w w1 ->
  Inv (rollback w w1) /\ rely w (rollback w w1) /\ guarantee o w (rollback w w1).
Proof.
  intros Hq HI [A B C D E F G H].
  assert (HR : rely w (rollback w w1)).
  { unfold rely, rollback; cbn. ands; [|apply trel_refl; auto|lia|apply C].
    intros i. rewrite mark_pending_find. destruct (tfind t_id i (w_tasks w)); [|auto].
    destruct (existsb _ _); reflexivity. }
  ands; auto.
  - eapply inv_update; [exact HI|exact HR|..]; unfold rollback; cbn.
    + rewrite mark_pending_ids. apply HI.
    + apply HI.
    + intros t Hin. apply mark_pending_in in Hin as (u & Hin & [->| ->]); [auto|right].
      destruct (inv_tasks _ HI _ Hin) as (T1&T2&T3&j&T4). pose proof (inv_task_fresh _ HI _ Hin) as T5.
      ands; try (cbn; lia); auto.
      * apply (parent_known_rely _ _ _ HR) in T3. exact T3.
      * exists j. exact T4.
    + auto.
    + rewrite F. auto.
    + intros m Hin. destruct (E m Hin) as [?|Hm]; auto. right. eapply msg_ok_rely; [exact HR|exact Hm].
    + reflexivity.
  - unfold guarantee, rollback; cbn. split; [|apply trel_refl, job_step_refl].
    intros i. rewrite mark_pending_find. destruct (tfind t_id i (w_tasks w)) as [t|] eqn:Et; [|auto].
    destruct (existsb (N.eqb (t_id t)) (w_auto w1)) eqn:Ex; [|apply task_step_refl].
    apply existsb_exists in Ex as (x & Hin & Ex). apply N.eqb_eq in Ex. subst x.
    rewrite Forall_forall in H. destruct (H _ Hin) as (t' & E' & Hs & Hj).
    pose proof (tfind_key _ _ _ _ Et) as Ei. rewrite find_task_t, Ei, Et in E'. injection E' as <-.
    unfold task_step; cbn. rewrite Hs. ands; auto; try congruence. right. now apply te_release.
Qed.

Lemma W_with_tx {A} (body : act A) w0 Q :
  from_queue QUEUE_COMPLETED o ->
  errs w0 Q ->
  (forall w, rely w0 w -> Inv w -> txok body w false w
     (fun b w1 a => forall w2, w_tasks w2 = w_tasks w1 -> w_jobs w2 = w_jobs w1 -> rely w0 w2 -> Q w2 (Ok a))) ->
  W w0 (with_tx body) Q.
Proof.
  intros Hq HE H. unfold with_tx. apply W_op. intros w HR HI. unfold a_with_tx, good.
  specialize (H w HR HI).
  assert (Ew : w <| w_auto := [] |> = w) by (destruct w; cbn; pose proof (inv_auto _ HI) as Ha; cbn in Ha; now subst).
  rewrite Ew.
  assert (HT0 : TI false w w).
  { constructor; auto using rely_refl; [apply trel_refl, tx_step_refl|now rewrite Ew|].
    rewrite (inv_auto _ HI). constructor. }
  destruct (H HT0) as (b & HT & Hr). destruct (body w) as [w1 r]. cbn [fst snd] in *.
  assert (Hroll : forall w1' (r' : outcome A), TI b w w1' -> Q (rollback w w1') r' ->
     Inv (fst (rollback w w1', r')) /\ rely w (fst (rollback w w1', r')) /\ guarantee o w (fst (rollback w w1', r')) /\
     Q (fst (rollback w w1', r')) (snd (rollback w w1', r'))).
  { intros w1' r' HT' HQ'. cbn [fst snd]. destruct (rollback_ok _ _ _ Hq HI HT') as (?&?&?). auto. }
  assert (Herr : forall w1' e, TI b w w1' -> Q (rollback w w1') (Err e None)).
  { intros w1' e HT'. apply HE. destruct (rollback_ok _ _ _ Hq HI HT') as (_&?&_). eauto using rely_trans. }
  assert (Hcommit : forall w1', TI b w w1' -> Inv (w1' <| w_auto := [] |>) /\ rely w (w1' <| w_auto := [] |>) /\ guarantee o w (w1' <| w_auto := [] |>)).
  { intros w1' [A1 B C D E F G K]. ands; auto. unfold guarantee; cbn. split.
    - eapply trel_impl; [| |exact A1]; cbn; [|easy]. intros; now apply tx_step_task_step.
    - destruct b; [|rewrite D; apply trel_refl, job_step_refl].
      eapply trel_impl; [| |exact D]; cbn; [auto|easy]. }
  destruct r as [a|e [m|]| |]; try contradiction; [|apply Hroll; auto].
  unfold faulty, aret. destruct (w_faults w1) as [|[] fs]; cbn [fst snd].
  - destruct (Hcommit w1 HT) as (X1&X2&X3). ands; auto. apply Hr; auto. eauto using rely_trans.
  - assert (HT' : TI b w (w1 <| w_faults := fs |>)) by (eapply TI_same; eauto; reflexivity). apply Hroll; auto.
  - assert (HT' : TI b w (w1 <| w_faults := fs |>)) by (eapply TI_same; eauto; reflexivity).
    destruct (Hcommit _ HT') as (X1&X2&X3). ands; auto. apply Hr; auto. eauto using rely_trans.
Qed.
End Tx.
