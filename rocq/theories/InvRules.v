(** The store/history invariant is preserved by every primitive operation that meets a small obligation. *)
From Verif Require Export Logic EvalProofs.
Open Scope string_scope.
Open Scope list_scope.
Open Scope Z_scope.

(** The broker's history only grows. *)
Definition grows {A} (h h' : list A) : Prop := exists ms, h' = h ++ ms.
Lemma grows_refl {A} (h : list A) : grows h h.
Proof. exists []. now rewrite app_nil_r. Qed.
Lemma grows_eq {A} (h h' : list A) : h' = h -> grows h h'.
Proof. intros ->. apply grows_refl. Qed.
Lemma grows_snoc {A} (h : list A) ms : grows h (h ++ ms).
Proof. now exists ms. Qed.
Lemma grows_trans {A} (a b c : list A) : grows a b -> grows b c -> grows a c.
Proof. intros [x ->] [y ->]. exists (x ++ y). now rewrite app_assoc. Qed.
Lemma grows_in {A} (a b : list A) x : grows a b -> In x a -> In x b.
Proof. intros [y ->] H. apply in_or_app. now left. Qed.
#[export] Hint Resolve grows_refl grows_eq grows_snoc : core.

Definition rely (w w' : world) : Prop :=
  trel t_id (fun t t' => tdef t' = tdef t) (fun _ => True) (w_tasks w) (w_tasks w') /\
  trel j_id (fun j j' => jdef j' = jdef j /\ (1 <= j_position j -> 1 <= j_position j')) (fun _ => True) (w_jobs w) (w_jobs w') /\
  (w_fresh w <= w_fresh w')%N /\
  grows (w_hist w) (w_hist w').
Definition guarantee (o : origin) (w w' : world) : Prop :=
  trel t_id (task_step o) (task_new o) (w_tasks w) (w_tasks w') /\
  trel j_id (job_step o) job_new (w_jobs w) (w_jobs w').

Lemma task_step_refl o t : task_step o t t.
Proof. unfold task_step. auto 10. Qed.
Lemma job_step_refl o j : job_step o j j.
Proof. unfold job_step. auto 10. Qed.

Lemma job_step_pos o j j' : job_step o j j' -> 1 <= j_position j -> 1 <= j_position j'.
Proof. intros (_ & _ & _ & _ & [->|[[_ ->]|[_ ->]]] & _); lia. Qed.

Lemma rely_refl w : rely w w.
Proof. unfold rely; ands; try (apply trel_refl; auto); auto. lia. Qed.
Lemma rely_trans a b c : rely a b -> rely b c -> rely a c.
Proof.
  intros (H1 & H2 & H3 & H3') (H4 & H5 & H6 & H6'). unfold rely; ands.
  - eapply trel_trans; [| |exact H1|exact H4]; cbn; [intros; congruence|auto].
  - eapply trel_trans; [| |exact H2|exact H5]; cbn; [intros x y z [] []; split; [congruence|auto]|auto].
  - lia.
  - eapply grows_trans; eauto.
Qed.
Lemma guarantee_same o w w' : w_tasks w' = w_tasks w -> w_jobs w' = w_jobs w -> guarantee o w w'.
Proof.
  intros E1 E2. unfold guarantee. rewrite E1, E2. split; apply trel_refl; auto using task_step_refl, job_step_refl.
Qed.
Lemma rely_same w w' : w_tasks w' = w_tasks w -> w_jobs w' = w_jobs w -> (w_fresh w <= w_fresh w')%N ->
  grows (w_hist w) (w_hist w') -> rely w w'.
Proof.
  intros E1 E2 E3 E4. unfold rely. rewrite E1, E2. ands; try (apply trel_refl; auto); auto.
Qed.

Lemma NoDup_snoc {A} (l : list A) x : NoDup l -> ~ In x l -> NoDup (l ++ [x]).
Proof.
  induction l as [|a l IH]; cbn; intros H Hn.
  - constructor; auto.
  - inversion H; subst. constructor.
    + intros Hin. apply in_app_or in Hin as [?|[<-|[]]]; auto.
    + apply IH; auto.
Qed.
Lemma tfind_nodup {X} (key : X -> id) l x : NoDup (map key l) -> In x l -> tfind key (key x) l = Some x.
Proof.
  unfold tfind. induction l as [|a l IH]; cbn; [easy|]. intros H [->|Hin].
  - now rewrite N.eqb_refl.
  - inversion H; subst. destruct (N.eqb (key a) (key x)) eqn:E; [|auto].
    apply N.eqb_eq in E. exfalso. apply H2. rewrite E. now apply in_map.
Qed.

(** Consequences of equal definitions. *)
Lemma tdef_proj t u : tdef u = tdef t ->
  t_id u = t_id t /\ t_job u = t_job t /\ t_parent u = t_parent t /\ t_position u = t_position t /\
  t_redelivered u = t_redelivered t /\ t_var u = t_var t /\ t_if u = t_if t /\
  is_some (t_parallel u) = is_some (t_parallel t) /\ is_some (t_each u) = is_some (t_each t) /\
  is_some (t_subjob u) = is_some (t_subjob t).
Proof.
  intros H.
  ands;
  match goal with
  | |- is_some (?f ?a) = is_some (?f ?b) =>
      assert (E : is_some (f (tdef a)) = is_some (f (tdef b))) by (now rewrite H);
      cbn in E; destruct (f a), (f b); easy
  | |- ?f ?a = ?f ?b => change (f (tdef a) = f (tdef b)); now rewrite H
  end.
Qed.
Lemma jdef_proj j u : jdef u = jdef j ->
  j_id u = j_id j /\ j_parent u = j_parent j /\ j_tasks u = j_tasks j /\ j_defaults u = j_defaults j /\
  j_taskcount u = j_taskcount j /\ j_output u = j_output j /\ j_autodelete u = j_autodelete j.
Proof.
  intros H. ands;
  match goal with |- ?f ?a = ?f ?b => change (f (jdef a) = f (jdef b)); now rewrite H end.
Qed.

Lemma rely_task w w' i t : rely w w' -> find_task i w = Some t -> exists t', find_task i w' = Some t' /\ tdef t' = tdef t.
Proof.
  intros (H & _) E. specialize (H i). rewrite !find_task_t in *. rewrite E in H.
  destruct (tfind t_id i (w_tasks w')); [eauto|easy].
Qed.
Lemma rely_job w w' i j : rely w w' -> find_job i w = Some j -> exists j', find_job i w' = Some j' /\ jdef j' = jdef j /\
  (1 <= j_position j -> 1 <= j_position j').
Proof.
  intros (_ & H & _) E. specialize (H i). rewrite !find_job_t in *. rewrite E in H.
  destruct (tfind j_id i (w_jobs w')); [eauto|easy].
Qed.

Lemma composite_def t u : tdef u = tdef t -> composite u = composite t.
Proof.
  intros H. apply tdef_proj in H as (_&_&_&_&_&_&_&H1&H2&_). unfold composite. now rewrite H1, H2.
Qed.

Lemma task_known_rely w w' t : rely w w' -> task_known w t -> task_known w' t.
Proof.
  intros HR (u & E & H). destruct (rely_task _ _ _ _ HR E) as (u' & E' & Hd).
  exists u'. split; [exact E'|]. apply tdef_proj in Hd. unfold about in *.
  destruct Hd as (?&?&?&?&?&?&?&?&?&?), H as (?&?&?&?&?&?&?). ands; congruence.
Qed.
Lemma job_known_rely w w' j : rely w w' -> job_known w j -> job_known w' j.
Proof.
  intros HR (u & E & H). destruct (rely_job _ _ _ _ HR E) as (u' & E' & Hd & _). exists u'. split; congruence.
Qed.
Lemma parent_known_rely w w' t : rely w w' -> parent_known w t -> parent_known w' t.
Proof.
  intros HR H Hn. destruct (H Hn) as (Hlt & p & E & Hj & Hc). destruct (rely_task _ _ _ _ HR E) as (p' & E' & Hd).
  split; [exact Hlt|]. exists p'. split; [exact E'|]. rewrite (composite_def _ _ Hd). apply tdef_proj in Hd. intuition congruence.
Qed.
Lemma job_parent_known_rely w w' j : rely w w' -> job_parent_known w j -> job_parent_known w' j.
Proof.
  intros HR H Hn. destruct (H Hn) as (p & E & Hs). destruct (rely_task _ _ _ _ HR E) as (p' & E' & Hd). exists p'. split; [exact E'|].
  apply tdef_proj in Hd as (_&_&_&_&_&_&_&_&_&Hd). congruence.
Qed.
Lemma msg_ok_rely w w' m : rely w w' -> msg_ok w m -> msg_ok w' m.
Proof.
  intros HR. destruct m; cbn; auto; intros [? ?]; split; eauto using task_known_rely, job_known_rely.
Qed.

Lemma find_put_in {X} (key : X -> id) u l x : In x (tput key u l) -> x = u \/ In x l.
Proof.
  unfold tput. rewrite in_map_iff. intros (y & E & H). destruct (N.eqb (key y) (key u)); subst; auto.
Qed.

(** Re-establishing the invariant after a change that respects [rely]. *)
Lemma inv_update w w' :
  Inv w -> rely w w' ->
  NoDup (map t_id (w_tasks w')) -> NoDup (map j_id (w_jobs w')) ->
  (forall t, In t (w_tasks w') -> In t (w_tasks w) \/
      ((0 < t_id t < w_fresh w')%N /\ task_ok t /\ t_redelivered t = 0 /\ parent_known w' t /\ exists j, find_job (t_job t) w' = Some j)) ->
  (forall j, In j (w_jobs w') -> In j (w_jobs w) \/ ((0 < j_id j < w_fresh w')%N /\ job_ok j /\ job_parent_known w' j)) ->
  (forall n, In n (w_nodes w') -> In n (w_nodes w) \/ String.prefix QUEUE_EXCLUSIVE_PREFIX (n_queue n) = true) ->
  (forall m, In m (w_hist w') -> In m (w_hist w) \/ msg_ok w' m) ->
  w_auto w' = [] -> Inv w'.
Proof.
  intros HI HR N1 N2 Ht Hj Hn Hm Ha. assert (Hf : (w_fresh w <= w_fresh w')%N) by apply HR.
  destruct HI as [A B C D E F G0 H J K]. constructor; auto.
  - lia.
  - intros t Hin. destruct (Ht t Hin) as [Hold|(?&_)]; [|tauto]. apply D in Hold. lia.
  - intros t Hin. destruct (Hj t Hin) as [Hold|(?&_)]; [|tauto]. apply E in Hold. lia.
  - intros t Hin. destruct (Ht t Hin) as [Hold|(_&?&?&?&?)]; [|auto].
    destruct (F _ Hold) as (?&?&?&j&Ej). ands; auto; eauto using parent_known_rely.
    destruct (rely_job _ _ _ _ HR Ej) as (j' & ? & _). eauto.
  - intros t Hin. destruct (Hj t Hin) as [Hold|(_&?&?)]; [|auto].
    destruct (G0 _ Hold). split; eauto using job_parent_known_rely.
  - intros n Hin. destruct (Hn n Hin); auto.
  - intros m Hin. destruct (Hm m Hin); eauto using msg_ok_rely.
Qed.

(** The update of one task row. *)
Lemma inv_put_task w u u' :
  Inv w -> find_task (t_id u) w = Some u -> tdef u' = tdef u -> task_ok u' ->
  Inv (w <| w_tasks := put_task u' (w_tasks w) |>) /\ rely w (w <| w_tasks := put_task u' (w_tasks w) |>).
Proof.
  intros HI Hf Hd Hok. pose proof (tdef_proj _ _ Hd) as (Hid & Hjob & Hpar & _ & Hred & _).
  assert (HR : rely w (w <| w_tasks := put_task u' (w_tasks w) |>)).
  { unfold rely; cbn. split; [|split; [apply trel_refl; auto|split; [lia|auto]]].
    eapply trel_put; eauto. }
  split; [|exact HR].
  eapply inv_update; try exact HR; try exact HI; cbn; auto.
  - rewrite put_task_t, tput_keys. apply HI.
  - apply HI.
  - intros t Hin. apply find_put_in in Hin as [->|?]; [right|auto].
    pose proof (tfind_in _ _ _ _ Hf) as Hin. pose proof (inv_task_fresh _ HI _ Hin).
    destruct (inv_tasks _ HI _ Hin) as (_ & R0 & P0 & j & J0).
    rewrite Hid, Hred, Hjob. ands; auto; try tauto; try lia.
    + intros Hn. rewrite Hpar in Hn. apply (parent_known_rely _ _ _ HR) in P0. destruct (P0 Hn) as (Hlt & p & E & Ej & ?).
      rewrite Hpar, Hjob, Hid. split; [exact Hlt|]. exists p. auto.
    + exists j. exact J0.
  - apply HI.
Qed.
Lemma inv_put_job w u u' :
  Inv w -> find_job (j_id u) w = Some u -> jdef u' = jdef u -> job_ok u' ->
  (1 <= j_position u -> 1 <= j_position u') ->
  Inv (w <| w_jobs := put_job u' (w_jobs w) |>) /\ rely w (w <| w_jobs := put_job u' (w_jobs w) |>).
Proof.
  intros HI Hf Hd Hok Hpos. pose proof (jdef_proj _ _ Hd) as (Hid & Hpar & _).
  assert (HR : rely w (w <| w_jobs := put_job u' (w_jobs w) |>)).
  { unfold rely; cbn. split; [apply trel_refl; auto|split; [|split; [lia|auto]]]. eapply trel_put; eauto. }
  split; [|exact HR].
  eapply inv_update; try exact HR; try exact HI; cbn; auto.
  - apply HI.
  - rewrite put_job_t, tput_keys. apply HI.
  - intros t Hin. apply find_put_in in Hin as [->|?]; [right|auto].
    pose proof (tfind_in _ _ _ _ Hf) as Hin. pose proof (inv_job_fresh _ HI _ Hin).
    destruct (inv_jobs _ HI _ Hin) as (_ & P0). rewrite Hid. ands; auto; try tauto; try lia.
    all: try apply Hok.
    intros Hn. rewrite Hpar in *. exact (P0 Hn).
  - apply HI.
Qed.

(** Changing only clock, faults. *)
Lemma inv_same w w' :
  Inv w -> w_tasks w' = w_tasks w -> w_jobs w' = w_jobs w -> w_nodes w' = w_nodes w -> w_hist w' = w_hist w ->
  (w_fresh w <= w_fresh w')%N -> w_auto w' = w_auto w -> Inv w'.
Proof.
  intros HI E1 E2 E3 E4 E5 E6. eapply inv_update; try exact HI.
  - apply rely_same; auto.
  - rewrite E1; apply HI.
  - rewrite E2; apply HI.
  - rewrite E1; auto.
  - rewrite E2; auto.
  - rewrite E3; auto.
  - rewrite E4; auto.
  - rewrite E6; apply HI.
Qed.

Section Rules.
Variable o : origin.
Notation W := (wp Inv rely (guarantee o)).

Definition good {A} (w : world) (r : world * outcome A) (Q : world -> outcome A -> Prop) : Prop :=
  Inv (fst r) /\ rely w (fst r) /\ guarantee o w (fst r) /\ Q (fst r) (snd r).

Lemma W_op {A} (f : act A) w0 Q :
  (forall w, rely w0 w -> Inv w -> good w (f w) Q) -> W w0 (op f) Q.
Proof. intros H. apply wp_op. exact H. Qed.

Lemma good_same {A} w w' (r : outcome A) Q :
  Inv w -> w_tasks w' = w_tasks w -> w_jobs w' = w_jobs w -> w_nodes w' = w_nodes w -> w_hist w' = w_hist w ->
  (w_fresh w <= w_fresh w')%N -> w_auto w' = w_auto w -> (Q w' r : Prop) -> good w (w', r) Q.
Proof.
  intros. unfold good; cbn. ands; eauto using inv_same, rely_same, guarantee_same, @grows_eq.
Qed.

(** A faulty operation: without effect, or the operation on the same tables. *)
Lemma good_faulty {A} (f : act A) w (Q : world -> outcome A -> Prop) :
  Inv w ->
  (forall fs, Q (w <| w_faults := fs |>) (Err "fault" None)) ->
  (forall fs, Inv (w <| w_faults := fs |>) -> good (w <| w_faults := fs |>) (f (w <| w_faults := fs |>)) Q) ->
  good w (faulty f w) Q.
Proof.
  intros HI HF H. unfold faulty. destruct (w_faults w) as [|b r] eqn:E.
  - specialize (H []). replace (w <| w_faults := [] |>) with w in H by (destruct w; cbn in *; now subst). auto.
  - destruct b.
    + apply good_same; auto. reflexivity.
    + assert (HI' : Inv (w <| w_faults := r |>)) by (eapply inv_same; eauto; reflexivity).
      specialize (H r HI'). unfold good in *. destruct H as (H1 & H2 & H3 & H4). ands; auto.
Qed.

(** Rules for the primitive operations.  [Qe] are the error outcomes. *)
Definition errs {A} (w0 : world) (Q : world -> outcome A -> Prop) : Prop :=
  forall w e, rely w0 w -> Q w (Err e None).

Lemma rely_faults w0 w fs : rely w0 w -> rely w0 (w <| w_faults := fs |>).
Proof. intros H. eapply rely_trans; [exact H|]. apply rely_same; cbn; auto; lia. Qed.

Ltac fault_start := apply W_op; let w := fresh "w" in let HR := fresh "HR" in let HI := fresh "HI" in
  intros w HR HI; apply good_faulty; [exact HI|intros; auto using rely_faults|];
  let fs := fresh "fs" in let HI' := fresh "HI'" in intros fs HI';
  apply (rely_faults _ _ fs) in HR; 
  let w1 := fresh "w" in match type of HI' with Inv ?x => set (w1 := x) in * end;
  match type of HR with rely _ ?x => change x with w1 in HR end;
  clearbody w1; clear HI fs w; rename w1 into w; rename HI' into HI.

Lemma W_get_task i w0 Q :
  errs w0 Q ->
  (forall w t, rely w0 w -> Inv w -> find_task i w = Some t -> t_id t = i -> task_ok t -> Q w (Ok t)) ->
  W w0 (get_task i) Q.
Proof.
  intros HE H. unfold get_task, a_get_task. fault_start.
  destruct (find_task i w) as [t|] eqn:E; apply good_same; auto; try lia.
  apply H; auto.
  - now apply tfind_key in E.
  - apply tfind_in in E. now apply (inv_tasks _ HI) in E.
Qed.
Lemma W_get_job i w0 Q :
  errs w0 Q ->
  (forall w j, rely w0 w -> Inv w -> find_job i w = Some j -> j_id j = i -> job_ok j -> Q w (Ok j)) ->
  W w0 (get_job i) Q.
Proof.
  intros HE H. unfold get_job, a_get_job. fault_start.
  destruct (find_job i w) as [t|] eqn:E; apply good_same; auto; try lia.
  apply H; auto.
  - now apply tfind_key in E.
  - apply tfind_in in E. now apply (inv_jobs _ HI) in E.
Qed.
Lemma W_get_node i w0 Q :
  errs w0 Q ->
  (forall w n, rely w0 w -> Inv w -> String.prefix QUEUE_EXCLUSIVE_PREFIX (n_queue n) = true -> Q w (Ok n)) ->
  W w0 (get_node i) Q.
Proof.
  intros HE H. unfold get_node, a_get_node. fault_start.
  destruct (find_node i w) as [t|] eqn:E; apply good_same; auto; try lia.
  apply H; auto. apply find_some in E as [E _]. now apply (inv_nodes _ HI) in E.
Qed.
Lemma W_get_active i w0 Q :
  errs w0 Q ->
  (forall w l, rely w0 w -> Inv w ->
     Forall (fun t => find_task (t_id t) w = Some t /\ t_job t = i /\ active (t_state t) = true) l -> Q w (Ok l)) ->
  W w0 (get_active i) Q.
Proof.
  intros HE H. unfold get_active, a_get_active. fault_start.
  apply good_same; auto; try lia. apply H; auto.
  apply Forall_forall. intros t Hin. apply filter_In in Hin as [Hin Hb].
  apply andb_true_iff in Hb as [H1 H2]. apply N.eqb_eq in H1. repeat split; auto.
  rewrite find_task_t. apply tfind_nodup; auto. apply HI.
Qed.

Lemma W_now w0 (Q : world -> outcome time -> Prop) : (forall w c, rely w0 w -> Q w (Ok c)) -> W w0 now Q.
Proof. intros H. apply W_op. intros w HR HI. apply good_same; auto; cbn; try lia. Qed.
Lemma W_new_id w0 (Q : world -> outcome id -> Prop) :
  (forall w i, rely w0 w -> Inv w -> (0 < i < w_fresh w)%N -> (forall t, task_known w0 t -> (t_id t < i)%N) -> Q w (Ok i)) ->
  W w0 new_id Q.
Proof.
  intros H. apply W_op. intros w HR HI. unfold a_new_id.
  assert (HI' : Inv (w <| w_fresh := N.succ (w_fresh w) |>)) by (eapply inv_same; eauto; cbn; lia).
  apply good_same; auto; cbn; try lia.
  apply H; auto.
  - eapply rely_trans; [exact HR|]. apply rely_same; cbn; auto; lia.
  - cbn. pose proof (inv_fresh _ HI). lia.
  - intros t Ht. apply (task_known_rely _ _ _ HR) in Ht as (u & E & _).
    rewrite <- (tfind_key _ _ _ _ E). apply tfind_in in E. now apply (inv_task_fresh _ HI) in E.
Qed.

Lemma W_update_task {A} i (modify : task -> outcome (task * A)) w0 Q :
  errs w0 Q ->
  (forall w u, rely w0 w -> Inv w -> find_task i w = Some u -> t_id u = i -> task_ok u ->
     match modify u with
     | Ok (u', a) => tdef u' = tdef u /\ task_ok u' /\ task_step o u u' /\
                     (forall w', rely w0 w' -> find_task i w' = Some u' -> Q w' (Ok a))
     | Err e m => Q w (Err e m)
     | Panic => Q w Panic
     | OutOfFuel => Q w OutOfFuel
     end) ->
  W w0 (update_task i modify) Q.
Proof.
  intros HE H. unfold update_task, a_update_task. fault_start.
  destruct (find_task i w) as [u|] eqn:E; [|apply good_same; auto; lia].
  pose proof (tfind_key _ _ _ _ E) as Hid.
  pose proof (tfind_in _ _ _ _ E) as Hin. apply (inv_tasks _ HI) in Hin as (Hok & _).
  specialize (H w u HR HI E Hid Hok).
  destruct (modify u) as [[u' a]|e m| |]; try (apply good_same; auto; lia).
  destruct H as (Hd & Hok' & Hs & HQ). subst i.
  destruct (inv_put_task _ _ _ HI E Hd Hok') as [HI' HR'].
  unfold good; cbn [fst snd]. ands; auto.
  - unfold guarantee; cbn. split; [|apply trel_refl, job_step_refl].
    eapply trel_put; eauto using task_step_refl. now apply tdef_proj in Hd.
  - apply HQ; [eapply rely_trans; eauto|].
    rewrite find_task_t. cbn. rewrite put_task_t.
    replace (t_id u) with (t_id u') by (now apply tdef_proj in Hd).
    eapply tfind_put_same. replace (t_id u') with (t_id u) by (symmetry; now apply tdef_proj in Hd). exact E.
Qed.
Lemma W_update_job {A} i (modify : job -> outcome (job * A)) w0 Q :
  errs w0 Q ->
  (forall w u, rely w0 w -> Inv w -> find_job i w = Some u -> j_id u = i -> job_ok u ->
     match modify u with
     | Ok (u', a) => jdef u' = jdef u /\ job_ok u' /\ job_step o u u' /\
                     (forall w', rely w0 w' -> find_job i w' = Some u' -> Q w' (Ok a))
     | Err e m => Q w (Err e m)
     | Panic => Q w Panic
     | OutOfFuel => Q w OutOfFuel
     end) ->
  W w0 (update_job i modify) Q.
Proof.
  intros HE H. unfold update_job, a_update_job. fault_start.
  destruct (find_job i w) as [u|] eqn:E; [|apply good_same; auto; lia].
  pose proof (tfind_key _ _ _ _ E) as Hid.
  pose proof (tfind_in _ _ _ _ E) as Hin. apply (inv_jobs _ HI) in Hin as (Hok & _).
  specialize (H w u HR HI E Hid Hok).
  destruct (modify u) as [[u' a]|e m| |]; try (apply good_same; auto; lia).
  destruct H as (Hd & Hok' & Hs & HQ). subst i.
  destruct (inv_put_job _ _ _ HI E Hd Hok' (job_step_pos _ _ _ Hs)) as [HI' HR'].
  unfold good; cbn [fst snd]. ands; auto.
  - unfold guarantee; cbn. split; [apply trel_refl, task_step_refl|].
    eapply trel_put; eauto using job_step_refl. now apply jdef_proj in Hd.
  - apply HQ; [eapply rely_trans; eauto|].
    rewrite find_job_t. cbn. rewrite put_job_t.
    replace (j_id u) with (j_id u') by (now apply jdef_proj in Hd).
    eapply tfind_put_same. replace (j_id u') with (j_id u) by (symmetry; now apply jdef_proj in Hd). exact E.
Qed.

Lemma W_publish m w0 (Q : world -> outcome unit -> Prop) :
  errs w0 Q ->
  (forall w, rely w0 w -> Inv w -> msg_ok w m) ->
  (forall w, rely w0 w -> Q w (Ok tt)) ->
  W w0 (op (a_publish m)) Q.
Proof.
  intros HE HM H. unfold a_publish. fault_start.
  assert (HR' : rely w (w <| w_hist := w_hist w ++ [m] |>)) by (apply rely_same; cbn; auto; lia).
  unfold good; cbn [fst snd]. ands; auto.
  - eapply inv_update; try exact HI; try exact HR'; cbn; auto; try apply HI.
    intros x Hin. apply in_app_or in Hin as [?|[<-|[]]]; auto. right. eapply msg_ok_rely; eauto.
  - apply guarantee_same; auto.
  - apply H. eapply rely_trans; eauto.
Qed.

Lemma W_create_task t w0 Q :
  errs w0 Q ->
  (0 < t_id t < w_fresh w0)%N -> task_ok (db_task t) -> task_new o (db_task t) -> parent_known w0 t ->
  (forall w, rely w0 w -> find_task (t_id t) w = Some (db_task t) -> Q w (Ok tt)) ->
  W w0 (create_task t) Q.
Proof.
  intros HE Hid Hok Hnew Hp H. unfold create_task, a_create_task. fault_start.
  destruct (existsb _ (w_tasks w)) eqn:E1; [apply good_same; auto; lia|].
  destruct (existsb _ (w_jobs w)) eqn:E2; [|apply good_same; auto; lia].
  apply (tfind_none t_id) in E1.
  assert (Hj : exists j, find_job (t_job t) w = Some j).
  { destruct (find_job (t_job t) w) eqn:E; eauto. rewrite find_job_t in E. apply (tfind_none j_id) in E. congruence. }
  set (w' := w <| w_tasks := w_tasks w ++ [db_task t] |>).
  assert (HR' : rely w w').
  { unfold rely, w'; cbn. ands; try (apply trel_refl; auto); try lia; auto.
    apply trel_app; auto. }
  assert (Hf : (w_fresh w0 <= w_fresh w)%N) by apply HR.
  unfold good; cbn [fst snd]. ands; auto.
  - eapply inv_update; try exact HI; try exact HR'; unfold w'; cbn; auto; try apply HI.
    + rewrite map_app. cbn. apply NoDup_snoc; [apply HI|]. cbn.
      intros Hin. apply in_map_iff in Hin as (x & Ex & Hx). apply (find_none _ _ E1) in Hx. apply N.eqb_neq in Hx. congruence.
    + intros x Hin. apply in_app_or in Hin as [?|[<-|[]]]; auto. right. cbn.
      ands; auto; try lia.
      all: try (apply (parent_known_rely _ _ _ HR) in Hp; apply (parent_known_rely _ _ _ HR') in Hp; exact Hp).
  - unfold guarantee, w'; cbn. split; [|apply trel_refl, job_step_refl].
    apply trel_app; auto using task_step_refl.
  - apply H; [eapply rely_trans; eauto|]. change (tfind t_id (t_id t) (w_tasks w ++ [db_task t]) = Some (db_task t)).
    rewrite tfind_app, E1. cbn. now rewrite N.eqb_refl.
Qed.

Lemma W_create_job j w0 Q :
  errs w0 Q ->
  (0 < j_id j < w_fresh w0)%N -> job_ok j -> job_new j -> job_parent_known w0 j ->
  (forall w, rely w0 w -> find_job (j_id j) w = Some j -> Q w (Ok tt)) ->
  W w0 (create_job j) Q.
Proof.
  intros HE Hid Hok Hnew Hp H. unfold create_job, a_create_job. fault_start.
  destruct (existsb _ (w_jobs w)) eqn:E1; [apply good_same; auto; lia|].
  apply (tfind_none j_id) in E1.
  set (w' := w <| w_jobs := w_jobs w ++ [j] |>).
  assert (HR' : rely w w').
  { unfold rely, w'; cbn. ands; try (apply trel_refl; auto); try lia; auto.
    apply trel_app; auto. }
  assert (Hf : (w_fresh w0 <= w_fresh w)%N) by apply HR.
  unfold good; cbn [fst snd]. ands; auto.
  - eapply inv_update; try exact HI; try exact HR'; unfold w'; cbn; auto; try apply HI.
    + rewrite map_app. cbn. apply NoDup_snoc; [apply HI|].
      intros Hin. apply in_map_iff in Hin as (x & Ex & Hx). apply (find_none _ _ E1) in Hx. apply N.eqb_neq in Hx. congruence.
    + intros x Hin. apply in_app_or in Hin as [?|[<-|[]]]; auto. right. cbn.
      ands; auto; try lia.
      apply (job_parent_known_rely _ _ _ HR) in Hp. apply (job_parent_known_rely _ _ _ HR') in Hp. exact Hp.
  - unfold guarantee, w'; cbn. split; [apply trel_refl, task_step_refl|].
    apply trel_app; auto using job_step_refl.
  - apply H; [eapply rely_trans; eauto|]. change (tfind j_id (j_id j) (w_jobs w ++ [j]) = Some j).
    rewrite tfind_app, E1. now rewrite N.eqb_refl.
Qed.

Lemma W_bind {A B} (p : prog A) (f : A -> prog B) Q w0 :
  W w0 p (fun w r => match r with
                      | Ok a => W w (f a) Q
                      | Err e m => Q w (Err e m)
                      | Panic => Q w Panic
                      | OutOfFuel => Q w OutOfFuel
                      end) -> W w0 (bind p f) Q.
Proof. apply wp_bind. Qed.
Lemma W_catch {A} (p : prog A) h Q w0 :
  W w0 p (fun w r => match r with Err e m => W w (h e m) Q | r => Q w r end) -> W w0 (catch p h) Q.
Proof. apply wp_catch. Qed.
Lemma W_conseq {A} (p : prog A) (Q Q' : world -> outcome A -> Prop) w0 :
  W w0 p Q -> (forall w r, Q w r -> Q' w r) -> W w0 p Q'.
Proof. intros H HQ. eapply wp_conseq; eauto. Qed.
Lemma W_conseq_rely {A} (p : prog A) (Q Q' : world -> outcome A -> Prop) w0 :
  W w0 p Q -> (forall w r, rely w0 w -> Q w r -> Q' w r) -> W w0 p Q'.
Proof. intros H HQ. eapply wp_conseq_rely; eauto using rely_refl, rely_trans. Qed.
Lemma W_done {A} (r : outcome A) (Q : world -> outcome A -> Prop) w0 : Q w0 r -> W w0 (Done r) Q.
Proof. auto. Qed.

End Rules.
