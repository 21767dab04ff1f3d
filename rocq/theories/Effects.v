(** What every operation of every handler does to the tables: second rely/guarantee layer.
    [b = true]: executions in which the size of an each task is never reset once a child of it has completed. *)
From Verif Require Export TxEffect.
Open Scope string_scope.
Open Scope list_scope.
Open Scope Z_scope.

Notation nores := sizes_kept.
(** [D p r]: in the execution at hand, a job whose parent is the task [p] was COMPLETED with the result [r] at some time *)
Definition seen (D : id -> string -> Prop) (w : world) : Prop :=
  forall i j, find_job i w = Some j -> j_state j = JCompleted -> D (j_parent j) (j_result j).
Definition Kb (D : id -> string -> Prop) (b : bool) (w w' : world) : Prop :=
  Inv w /\ Inv w' /\ rely w w' /\ (b = true -> nores w w') /\ seen D w'.
Definition trow (t t' : task) : Prop := attempts_of t' = attempts_of t /\ count_of t <= count_of t'.
Definition Rb (b : bool) (w w' : world) : Prop :=
  rely w w' /\ trel t_id trow (fun _ => True) (w_tasks w) (w_tasks w') /\ (b = true -> nores w w').
(** where messages about tasks come from; [wired]: all, [pub_ok]: those the coordinator publishes *)
Definition src (D : id -> string -> Prop) (t : task) : Prop :=
  is_some (t_subjob t) = true /\ (detached_of t = true \/ D (t_id t) (t_result t)).
Definition wired (D : id -> string -> Prop) (h : list msg) (m : msg) : Prop :=
  match m with
  | MTask q t =>
      (is_task_queue q = true -> t_queue t = q) /\
      (t_state t = TCompleted -> src D t \/ is_task_queue (t_queue t) = true) /\
      (q = QUEUE_COMPLETED -> t_state t = TCompleted ->
        src D t \/ exists h1 h2, h = h1 ++ m :: h2 /\ env_msg h1 m)
  | _ => True
  end.
Definition pub_ok (D : id -> string -> Prop) (m : msg) : Prop :=
  match m with
  | MTask q t =>
      (is_task_queue q = true -> t_queue t = q) /\
      (t_state t = TCompleted -> src D t \/ is_task_queue (t_queue t) = true) /\
      (q = QUEUE_COMPLETED -> t_state t = TCompleted -> src D t)
  | _ => True
  end.
Lemma pub_wired D h m : pub_ok D m -> wired D h m.
Proof. destruct m; cbn; auto. intros (A & B & C). ands; auto. Qed.
Lemma wired_app D h ms m : wired D h m -> wired D (h ++ ms) m.
Proof.
  destruct m; cbn; auto. intros (A & B & C). ands; auto. intros Hq Hs. destruct (C Hq Hs) as [H|(h1 & h2 & -> & H)]; [now left|].
  right. exists h1, (h2 ++ ms). rewrite <- app_assoc. auto.
Qed.
Lemma wired_all D h ms : (forall m, In m h -> wired D h m) -> Forall (wired D (h ++ ms)) ms -> forall m, In m (h ++ ms) -> wired D (h ++ ms) m.
Proof.
  intros A B m Hin. apply in_app_or in Hin as [Hin|Hin]; [now apply wired_app, A|]. rewrite Forall_forall in B. auto.
Qed.
Definition I2 (D : id -> string -> Prop) (w : world) : Prop :=
  (forall i t, find_task i w = Some t -> 0 <= count_of t) /\
  (forall m, In m (w_hist w) -> match m with MTask _ t | MProgress t => kn w t | _ => True end) /\
  (forall m, In m (w_hist w) -> wired D (w_hist w) m).
(** a composite task all of whose children completed *)
Definition filled (b : bool) (w : world) (i : id) : Prop :=
  exists p, find_task i w = Some p /\ composite p = true /\
    (is_some (t_parallel p) = true \/ b = true -> 0 < count_of p /\ width_of p <= count_of p).
(** [q = false]: a thread that records nothing *)
Definition Gb (O : oracle) (b q : bool) (o : origin) (w w' : world) : Prop :=
  quiet O o w w' \/
  (q = true /\ from_queue QUEUE_COMPLETED o /\ ((exists i, records w w' i /\ (as_reported o w' i \/ filled b w i)) \/ leaks w w')).

Lemma trow_refl t : trow t t.
Proof. split; [reflexivity|lia]. Qed.
Lemma Rb_refl b w : Rb b w w.
Proof.
  split; [apply rely_refl|]. split; [apply trel_refl, trow_refl|]. intros _ i p p' E E' _. congruence.
Qed.
Lemma Rb_row b w w' i t : Rb b w w' -> find_task i w = Some t ->
  exists t', find_task i w' = Some t' /\ tdef t' = tdef t /\ trow t t'.
Proof.
  intros (H1 & H2 & _) E. destruct (rely_task _ _ _ _ H1 E) as (t' & E' & Hd). exists t'. ands; auto; 
  specialize (H2 i); rewrite find_task_t in E, E'; rewrite E, E' in H2; apply H2.
Qed.
Lemma Rb_trans b x y z : Rb b x y -> Rb b y z -> Rb b x z.
Proof.
  intros H1 H2. pose proof H1 as (A1 & A2 & A3). pose proof H2 as (B1 & B2 & B3).
  split; [eapply rely_trans; eauto|]. split.
  - eapply trel_trans; [| |exact A2|exact B2]; [|auto]. unfold trow. intros ? ? ? [] []; split; [congruence|lia].
  - intros Hb i p p' E E' Hc. destruct (Rb_row _ _ _ _ _ H1 E) as (q & Eq & _ & _ & Hq).
    rewrite (B3 Hb i q p' Eq E'); [|lia]. apply (A3 Hb i p q E Eq Hc).
Qed.

Lemma count_db t : count_of (db_task t) = count_of t.
Proof. reflexivity. Qed.
Lemma attempts_db t : attempts_of (db_task t) = attempts_of t.
Proof. reflexivity. Qed.

Lemma kn_known w t : kn w t -> task_known w t.
Proof. intros (_ & u & E & H & _). exists u. auto. Qed.
Lemma kn_ok w t : kn w t -> task_ok t.
Proof. intros (H & _). exact H. Qed.
Lemma detached_def t u : tdef u = tdef t -> detached_of u = detached_of t.
Proof.
  intros H. assert (E : detached_of (tdef u) = detached_of (tdef t)) by (now rewrite H).
  unfold detached_of in *. cbn in E. destruct (t_subjob u), (t_subjob t); exact E.
Qed.
Lemma kn_R b w w' t : Rb b w w' -> kn w t -> kn w' t.
Proof.
  intros HR (Hok & u & E & Ha & Hv & Hat & Hc & Hdt). split; [exact Hok|].
  destruct (Rb_row _ _ _ _ _ HR E) as (u' & E' & Hd & Ht & _). exists u'. split; [exact E'|].
  pose proof (detached_def _ _ Hd). apply tdef_proj in Hd as (?&?&?&?&?&?&?&?&?&?). destruct Ha as (?&?&?&?&?&?&?). unfold about. ands; congruence.
Qed.
Lemma kn_tasks w w' t : w_tasks w' = w_tasks w -> kn w t -> kn w' t.
Proof. intros E (Hok & u & Eu & H). split; [exact Hok|]. exists u. split; [|exact H]. unfold find_task in *. now rewrite E. Qed.
Lemma kn_row D w t : find_task (t_id t) w = Some t -> Inv w -> I2 D w -> kn w t.
Proof.
  intros E HI (H & _). split; [apply (inv_row _ _ _ HI E)|]. exists t. unfold about. ands; auto. eapply H; eauto.
Qed.
Lemma kn_created w t : find_task (t_id t) w = Some (db_task t) -> task_ok t -> 0 <= count_of t -> kn w t.
Proof. intros E Hok Hc. split; [exact Hok|]. exists (db_task t). unfold about; cbn. auto 15. Qed.
(** same identity, definition and counters *)
Definition alike (t t' : task) : Prop :=
  t_id t' = t_id t /\ t_job t' = t_job t /\ t_parent t' = t_parent t /\ t_position t' = t_position t /\ t_var t' = t_var t /\
  t_parallel t' = t_parallel t /\ t_each t' = t_each t /\ is_some (t_subjob t') = is_some (t_subjob t) /\ attempts_of t' = attempts_of t /\
  detached_of t' = detached_of t.
Lemma kn_alike w t t' : kn w t -> alike t t' -> task_ok t' -> kn w t'.
Proof.
  intros (_ & u & E & Ha & Hv & Hat & Hc & Hdt) (A1&A2&A3&A4&A5&A6&A7&A8&A9&A10) Hok. split; [exact Hok|]. exists u.
  destruct Ha as (?&?&?&?&?&?&?). unfold about, count_of in *. rewrite A1, A6, A7. ands; congruence || auto.
Qed.
Lemma alike_refl t : alike t t.
Proof. unfold alike. auto 15. Qed.

(** Worlds that differ in nothing observable. *)
Definition calm (w w' : world) : Prop := w_tasks w' = w_tasks w /\ w_jobs w' = w_jobs w /\ w_hist w' = w_hist w.
Lemma quiet_row_refl o t : quiet_row o t t.
Proof. unfold quiet_row. ands; auto. intros [H1 H2]. congruence. Qed.
Lemma quiet_job_refl O o j : quiet_job O o j j.
Proof. unfold quiet_job, deletion_step. auto 10. Qed.
Lemma quiet_same O o w w' : w_tasks w' = w_tasks w -> w_jobs w' = w_jobs w -> quiet O o w w'.
Proof.
  intros E1 E2. split; intros i.
  - unfold find_task. rewrite E1. destruct (find _ (w_tasks w)); auto using quiet_row_refl.
  - unfold find_job. rewrite E2. destruct (find _ (w_jobs w)); auto using quiet_job_refl.
Qed.
Lemma trel_same w w' : w_tasks w' = w_tasks w -> trel t_id trow (fun _ => True) (w_tasks w) (w_tasks w').
Proof. intros ->. apply trel_refl, trow_refl. Qed.
Lemma I2_tasks D w w' ms : w_tasks w' = w_tasks w -> w_hist w' = w_hist w ++ ms ->
  Forall (fun m => match m with MTask _ t | MProgress t => kn w t | _ => True end) ms -> Forall (wired D (w_hist w ++ ms)) ms -> I2 D w -> I2 D w'.
Proof.
  intros E1 E2 Hm Hw (A & B & C). split; [|split; [|rewrite E2; now apply wired_all]].
  - intros i t. unfold find_task. rewrite E1. apply A.
  - intros m. rewrite E2. intros Hin. assert (H : match m with MTask _ t | MProgress t => kn w t | _ => True end).
    { apply in_app_or in Hin as [Hin|Hin]; [now apply B|]. rewrite Forall_forall in Hm. now apply Hm. }
    destruct m; auto; eapply kn_tasks; eauto.
Qed.

Section Walk.
Variable O : oracle.
Variable D : id -> string -> Prop.
Variable b q : bool.
Variable o : origin.
Notation K := (Kb D b).
Notation R := (Rb b).
Notation G := (Gb O b q o).
Notation W := (wx K (I2 D) R G).

Lemma K_R w w' : K w w' -> trel t_id trow (fun _ => True) (w_tasks w) (w_tasks w') -> R w w'.
Proof. intros (_ & _ & H & Hn & _) Ht. split; [exact H|]. auto. Qed.

Lemma X_bind {A B} (p : prog A) (f : A -> prog B) Q w0 :
  W w0 p (fun w r => match r with
                      | Ok a => W w (f a) Q
                      | Err e m => Q w (Err e m)
                      | Panic => Q w Panic
                      | OutOfFuel => Q w OutOfFuel
                      end) -> W w0 (bind p f) Q.
Proof. apply wx_bind. Qed.
Lemma X_catch {A} (p : prog A) h Q w0 :
  W w0 p (fun w r => match r with Err e m => W w (h e m) Q | r => Q w r end) -> W w0 (catch p h) Q.
Proof. apply wx_catch. Qed.
Lemma X_conseq {A} (p : prog A) (Q Q' : world -> outcome A -> Prop) w0 :
  W w0 p Q -> (forall w r, R w0 w -> Q w r -> Q' w r) -> W w0 p Q'.
Proof. intros H HQ. eapply wx_conseq; eauto using Rb_refl, Rb_trans. Qed.

(** Operations that change nothing. *)
Lemma X_calm {A} (f : act A) w0 (Q : world -> outcome A -> Prop) :
  (forall w, calm w (fst (f w))) ->
  (forall w w', R w0 w -> R w0 w' -> Inv w -> I2 D w -> calm w w' -> forall r, f w = (w', r) -> Q w' r) ->
  W w0 (op f) Q.
Proof.
  intros Hc HQ. apply wx_op. intros w HR HI HK. destruct (Hc w) as (C1 & C2 & C3).
  destruct (f w) as [w' r] eqn:E. cbn [fst snd] in *.
  assert (HR' : R w w') by (apply K_R; auto using trel_same).
  split; [|split; [exact HR'|split]].
  - eapply (I2_tasks D w w' []); auto. rewrite C3. now rewrite app_nil_r.
  - left. now apply quiet_same.
  - eapply HQ; eauto; [eapply Rb_trans; eauto|apply HK|repeat split; auto].
Qed.

Definition errs {A} (w0 : world) (Q : world -> outcome A -> Prop) : Prop :=
  forall w r, R w0 w -> notok r -> Q w r.

Lemma calm_faulty {A} (f : act A) : (forall w, calm w (fst (f w))) -> forall w, calm w (fst (faulty f w)).
Proof.
  intros H w. destruct (faulty_cases f w) as (fs & [E|E]); rewrite E; [repeat split; auto|]. destruct (H (w <| w_faults := fs |>)) as (H1 & H2 & H3). repeat split; [exact H1|exact H2|exact H3].
Qed.
Ltac calm_tac := intros ?; apply calm_faulty; intros ?;
  repeat match goal with |- context [match ?x with _ => _ end] => destruct x end; repeat split; auto.

Lemma X_get_task i w0 Q : errs w0 Q ->
  (forall w t, R w0 w -> find_task i w = Some t -> t_id t = i -> kn w t -> Q w (Ok t)) ->
  W w0 (get_task i) Q.
Proof.
  intros HE H. apply X_calm; [unfold a_get_task; calm_tac|].
  intros w w' HR HR' HI H2 (C1 & C2 & C3) r. unfold a_get_task.
  match goal with |- faulty ?g w = _ -> _ => destruct (faulty_cases g w) as (fs & [E|E]); rewrite E; clear E end.
  { intros E. injection E as _ <-. apply HE; auto. exact I. }
  change (find_task i (w <| w_faults := fs |>)) with (find_task i w).
  destruct (find_task i w) as [t|] eqn:E; intros E1; injection E1 as _ <-; [|apply HE; auto; exact I].
  pose proof (tfind_key _ _ _ _ E) as Hid. apply H; auto; [unfold find_task; now rewrite C1|].
  apply (kn_tasks w); auto. apply (kn_row D); auto. now rewrite Hid.
Qed.
Lemma X_get_job i w0 Q : errs w0 Q ->
  (forall w j, R w0 w -> find_job i w = Some j -> j_id j = i -> job_ok j -> Q w (Ok j)) ->
  W w0 (get_job i) Q.
Proof.
  intros HE H. apply X_calm; [unfold a_get_job; calm_tac|].
  intros w w' HR HR' HI H2 (C1 & C2 & C3) r. unfold a_get_job.
  match goal with |- faulty ?g w = _ -> _ => destruct (faulty_cases g w) as (fs & [E|E]); rewrite E; clear E end.
  { intros E. injection E as _ <-. apply HE; auto. exact I. }
  change (find_job i (w <| w_faults := fs |>)) with (find_job i w).
  destruct (find_job i w) as [t|] eqn:E; intros E1; injection E1 as _ <-; [|apply HE; auto; exact I].
  destruct (inv_jrow _ _ _ HI E) as [Hok Hid]. apply H; auto. unfold find_job; now rewrite C2.
Qed.
Lemma X_get_node i w0 Q : errs w0 Q -> (forall w n, R w0 w -> is_task_queue (n_queue n) = false -> Q w (Ok n)) -> W w0 (get_node i) Q.
Proof.
  intros HE H. apply X_calm; [unfold a_get_node; calm_tac|].
  intros w w' HR HR' HI H2 _ r. unfold a_get_node.
  match goal with |- faulty ?g w = _ -> _ => destruct (faulty_cases g w) as (fs & [E|E]); rewrite E; clear E end.
  { intros E. injection E as _ <-. apply HE; auto. exact I. }
  destruct (find_node i _) as [t|] eqn:E; intros E1; injection E1 as _ <-; [|apply HE; auto; exact I]. apply H; auto.
  unfold find_node in E. apply find_some in E as [E _]. apply (inv_nodes _ HI) in E. unfold is_task_queue. rewrite E. apply andb_false_r.
Qed.
Lemma X_get_active i w0 Q : errs w0 Q ->
  (forall w l, R w0 w -> Forall (kn w) l -> Q w (Ok l)) -> W w0 (get_active i) Q.
Proof.
  intros HE H. apply X_calm; [unfold a_get_active; calm_tac|].
  intros w w' HR HR' HI H2 (C1 & C2 & C3) r. unfold a_get_active.
  match goal with |- faulty ?g w = _ -> _ => destruct (faulty_cases g w) as (fs & [E|E]); rewrite E; clear E end.
  { intros E. injection E as _ <-. apply HE; auto. exact I. }
  intros E1; injection E1 as _ <-. apply H; auto. apply Forall_forall. intros t Hin. apply filter_In in Hin as [Hin _].
  apply (kn_tasks w); auto. apply (kn_row D); auto. rewrite find_task_t. apply tfind_nodup; auto. apply HI.
Qed.
Lemma X_now w0 (Q : world -> outcome time -> Prop) : (forall w c, R w0 w -> Q w (Ok c)) -> W w0 now Q.
Proof.
  intros H. apply X_calm; [intros w; repeat split|]. intros w w' HR HR' HI H2 _ r E. injection E as <- <-. auto.
Qed.
Lemma X_new_id w0 (Q : world -> outcome id -> Prop) : (forall w i, R w0 w -> Q w (Ok i)) -> W w0 new_id Q.
Proof.
  intros H. apply X_calm; [intros w; repeat split|]. intros w w' HR HR' HI H2 _ r E. injection E as <- <-. auto.
Qed.

(** Publishing. *)
Lemma X_publish m w0 (Q : world -> outcome unit -> Prop) : pub_ok D m -> errs w0 Q ->
  (forall w, R w0 w -> match m with MTask _ t | MProgress t => kn w t | _ => True end) ->
  (forall w, R w0 w -> Q w (Ok tt)) ->
  W w0 (op (a_publish m)) Q.
Proof.
  intros HP HE HM H. apply wx_op. intros w HR HI HK. destruct (a_publish m w) as [w' r] eqn:E. cbn [fst snd] in *.
  unfold a_publish in E.
  match type of E with faulty ?g w = _ => destruct (faulty_cases g w) as (fs & [E1|E1]); rewrite E1 in E; clear E1 end;
    injection E as <- <-.
  - assert (HR' : R w (w <| w_faults := fs |>)) by (apply K_R; auto; now apply trel_same).
    split; [|split; [exact HR'|split]].
    + eapply (I2_tasks D w _ []); auto. cbn. now rewrite app_nil_r.
    + left. now apply quiet_same.
    + apply HE; [eapply Rb_trans; eauto|exact I].
  - match goal with |- I2 D ?x /\ _ => set (w' := x) in * end.
    assert (HR' : R w w') by (apply K_R; auto; now apply trel_same).
    split; [|split; [exact HR'|split]].
    + eapply (I2_tasks D w w' [m]); auto; (constructor; [|constructor]); [apply HM, HR|now apply pub_wired].
    + left. now apply quiet_same.
    + apply H. eapply Rb_trans; eauto.
Qed.

(** Row updates that record no completion. *)
Lemma quiet_put_task w w' u u' i : find_task i w = Some u -> t_id u' = t_id u -> quiet_row o u u' ->
  w_tasks w' = put_task u' (w_tasks w) -> w_jobs w' = w_jobs w -> quiet O o w w'.
Proof.
  intros E Hid Hq T J. pose proof (tfind_key _ _ _ _ E) as Hi. split; intros k.
  - rewrite !find_task_t, T. destruct (N.eq_dec k i) as [->|Hn].
    + rewrite find_task_t in E. rewrite E, (find_put_task u u' i); auto. congruence.
    + rewrite find_put_task_other by congruence. destruct (tfind t_id k (w_tasks w)); auto using quiet_row_refl.
  - unfold find_job. rewrite J. destruct (find _ (w_jobs w)); auto using quiet_job_refl.
Qed.
Lemma quiet_put_job w w' u u' i : find_job i w = Some u -> j_id u' = j_id u -> quiet_job O o u u' ->
  w_jobs w' = put_job u' (w_jobs w) -> w_tasks w' = w_tasks w -> quiet O o w w'.
Proof.
  intros E Hid Hq J T. pose proof (tfind_key _ _ _ _ E) as Hi. split; intros k.
  - unfold find_task. rewrite T. destruct (find _ (w_tasks w)); auto using quiet_row_refl.
  - rewrite !find_job_t, J. destruct (N.eq_dec k i) as [->|Hn].
    + rewrite find_job_t in E. rewrite E, (find_put_job u u' i); auto. congruence.
    + rewrite find_put_job_other by congruence. destruct (tfind j_id k (w_jobs w)); auto using quiet_job_refl.
Qed.

Lemma I2_rows w w' : R w w' -> (forall i t, find_task i w' = Some t -> 0 <= count_of t) -> w_hist w' = w_hist w -> I2 D w -> I2 D w'.
Proof.
  intros HR Hc E (A & B & C). split; [exact Hc|]. split; [|now rewrite E]. intros m. rewrite E. intros Hin. specialize (B m Hin).
  destruct m; auto; eapply kn_R; eauto.
Qed.

Lemma X_update_task {A} i (f : task -> outcome (task * A)) w0 Q :
  noerr f -> errs w0 Q ->
  (forall w u u' a, R w0 w -> Inv w -> find_task i w = Some u -> t_id u = i -> f u = Ok (u', a) ->
     t_id u' = t_id u /\ quiet_row o u u' /\ attempts_of u' = attempts_of u /\ (forall w', R w0 w' -> Q w' (Ok a))) ->
  W w0 (update_task i f) Q.
Proof.
  intros Hn HE H. apply wx_op. intros w HR HI HK. destruct (a_update_task i f w) as [w' r] eqn:E. cbn [fst snd] in *.
  apply upd_task_cases in E as (J & Hh & Ha & Hf & [[Hno T]|(u & u' & a & -> & Hu & Ef & T)]); [| |exact Hn].
  - assert (HR' : R w w') by (apply K_R; auto; now apply trel_same).
    split; [|split; [exact HR'|split]].
    + eapply (I2_tasks D w w' []); auto. rewrite Hh. now rewrite app_nil_r.
    + left. now apply quiet_same.
    + apply HE; [eapply Rb_trans; eauto|exact Hno].
  - pose proof (tfind_key _ _ _ _ Hu) as Hid.
    destruct (H w u u' a HR (proj1 HK) Hu Hid Ef) as (H1 & Hq & H3 & HQ).
    assert (Hcnt : count_of u' = count_of u) by apply Hq.
    assert (HR' : R w w').
    { apply K_R; auto. rewrite T, put_task_t. eapply trel_put; [apply trow_refl|exact Hu|exact H1|]. split; [exact H3|lia]. }
    split; [|split; [exact HR'|split]].
    + eapply I2_rows; eauto. intros k t Ek. rewrite find_task_t, T in Ek. destruct (N.eq_dec k i) as [->|Hne].
      * rewrite (find_put_task u u' i) in Ek; [|congruence|exact Hu]. injection Ek as <-. rewrite Hcnt. eapply (proj1 HI); eauto.
      * rewrite find_put_task_other in Ek by congruence. eapply (proj1 HI); eauto.
    + left. eapply quiet_put_task; eauto.
    + apply HQ. eapply Rb_trans; eauto.
Qed.
Lemma X_update_job_since {A} i (f : job -> outcome (job * A)) w0 Q :
  noerr f -> errs w0 Q ->
  (forall w u u' a, R w0 w -> Inv w -> find_job i w = Some u -> j_id u = i -> f u = Ok (u', a) ->
     j_id u' = j_id u /\ quiet_job O o u u' /\
     (forall w', R w0 w' -> R w w' -> (j_state u' = JCompleted -> D (j_parent u') (j_result u')) -> Q w' (Ok a))) ->
  W w0 (update_job i f) Q.
Proof.
  intros Hn HE H. apply wx_op. intros w HR HI HK. destruct (a_update_job i f w) as [w' r] eqn:E. cbn [fst snd] in *.
  apply upd_job_cases in E as (T & Hh & Ha & Hf & Hc); [|exact Hn].
  assert (HR' : R w w') by (apply K_R; auto; now apply trel_same).
  assert (HI' : I2 D w').
  { eapply (I2_tasks D w w' []); auto. rewrite Hh. now rewrite app_nil_r. }
  destruct Hc as [[Hno J]|(u & u' & a & -> & Hu & Ef & J)].
  - split; [|split; [exact HR'|split]]; [exact HI'| |].
    + left. now apply quiet_same.
    + apply HE; [eapply Rb_trans; eauto|exact Hno].
  - pose proof (tfind_key _ _ _ _ Hu) as Hid.
    destruct (H w u u' a HR (proj1 HK) Hu Hid Ef) as (H1 & Hq & HQ).
    split; [|split; [exact HR'|split]]; [exact HI'| |].
    + left. eapply quiet_put_job; eauto.
    + apply HQ; [eapply Rb_trans; eauto|exact HR'|]. intros Hs. destruct HK as (_ & _ & _ & _ & HS). apply (HS i); [|exact Hs].
      rewrite find_job_t, J. rewrite find_job_t in Hu. now rewrite (find_put_job u u' i) by (congruence || exact Hu).
Qed.

Lemma X_update_job {A} i (f : job -> outcome (job * A)) w0 Q :
  noerr f -> errs w0 Q ->
  (forall w u u' a, R w0 w -> Inv w -> find_job i w = Some u -> j_id u = i -> f u = Ok (u', a) ->
     j_id u' = j_id u /\ quiet_job O o u u' /\ (forall w', R w0 w' -> Q w' (Ok a))) ->
  W w0 (update_job i f) Q.
Proof.
  intros Hn HE H. apply X_update_job_since; auto. intros w u u' a HR HI E Hid Ef.
  destruct (H w u u' a HR HI E Hid Ef) as (A1 & A2 & A3). auto.
Qed.

(** New rows. *)
Lemma X_create_task t w0 Q :
  errs w0 Q -> 0 <= count_of t -> (forall w, R w0 w -> Inv w -> quiet_new o w (db_task t)) ->
  (forall w, R w0 w -> find_task (t_id t) w = Some (db_task t) -> Q w (Ok tt)) ->
  W w0 (create_task t) Q.
Proof.
  intros HE Hc Hnew H. apply wx_op. intros w HR HI HK. destruct (a_create_task t w) as [w' r] eqn:E. cbn [fst snd] in *.
  unfold a_create_task in E.
  match type of E with faulty ?g w = _ => destruct (faulty_cases g w) as (fs & [E1|E1]); rewrite E1 in E; clear E1 end.
  2: change (w_tasks (w <| w_faults := fs |>)) with (w_tasks w) in E; change (w_jobs (w <| w_faults := fs |>)) with (w_jobs w) in E;
    destruct (existsb (fun u => N.eqb (t_id u) (t_id t)) (w_tasks w)) eqn:Ed; [|destruct (existsb (fun j => N.eqb (j_id j) (t_job t)) (w_jobs w))].
  all: injection E as <- <-.
  1,2,4: assert (HR' : R w (w <| w_faults := fs |>)) by (apply K_R; auto; now apply trel_same); split; [|split; [exact HR'|split]];
    [eapply (I2_tasks D w _ []); auto; cbn; now rewrite app_nil_r|left; now apply quiet_same|
     apply HE; [eapply Rb_trans; eauto|exact I]].
  apply (tfind_none t_id) in Ed. match goal with |- I2 D ?x /\ _ => set (w' := x) in * end.
  assert (T : w_tasks w' = w_tasks w ++ [db_task t]) by reflexivity.
  assert (HR' : R w w').
  { apply K_R; auto. rewrite T. apply trel_app; auto using trow_refl. }
  split; [|split; [exact HR'|split]].
  - eapply I2_rows; eauto. intros k x Ek. rewrite find_task_t, T, tfind_app in Ek.
    destruct (tfind t_id k (w_tasks w)) eqn:E; [injection Ek as <-; eapply (proj1 HI); exact E|].
    destruct (N.eqb (t_id (db_task t)) k); [injection Ek as <-; now rewrite count_db|discriminate].
  - left. split; intros k.
    + rewrite !find_task_t, T, tfind_app. destruct (tfind t_id k (w_tasks w)); [apply quiet_row_refl|].
      destruct (N.eqb _ k); [|exact I]. apply Hnew; [exact HR|apply HK].
    + change (find_job k w') with (find_job k w). destruct (find_job k w); auto using quiet_job_refl.
  - apply H; [eapply Rb_trans; eauto|]. rewrite find_task_t, T, tfind_app. 
    rewrite Ed. change (t_id (db_task t)) with (t_id t). now rewrite N.eqb_refl.
Qed.
Lemma X_create_job j w0 Q :
  errs w0 Q -> j_position j = 0 -> j_deleteat j = None ->
  (forall w, R w0 w -> Q w (Ok tt)) ->
  W w0 (create_job j) Q.
Proof.
  intros HE Hp Hd H. apply wx_op. intros w HR HI HK. destruct (a_create_job j w) as [w' r] eqn:E. cbn [fst snd] in *.
  unfold a_create_job in E.
  match type of E with faulty ?g w = _ => destruct (faulty_cases g w) as (fs & [E1|E1]); rewrite E1 in E; clear E1 end.
  2: change (w_jobs (w <| w_faults := fs |>)) with (w_jobs w) in E;
    destruct (existsb (fun u => N.eqb (j_id u) (j_id j)) (w_jobs w)) eqn:Ed.
  all: injection E as <- <-.
  1,2: assert (HR' : R w (w <| w_faults := fs |>)) by (apply K_R; auto; now apply trel_same); split; [|split; [exact HR'|split]];
    [eapply (I2_tasks D w _ []); auto; cbn; now rewrite app_nil_r|left; now apply quiet_same|
     apply HE; [eapply Rb_trans; eauto|exact I]].
  apply (tfind_none j_id) in Ed. match goal with |- I2 D ?x /\ _ => set (w' := x) in * end.
  assert (T : w_jobs w' = w_jobs w ++ [j]) by reflexivity.
  assert (HR' : R w w') by (apply K_R; auto; now apply trel_same).
  split; [|split; [exact HR'|split]].
  - eapply (I2_tasks D w w' []); auto. cbn. now rewrite app_nil_r.
  - left. split; intros k.
    + change (find_task k w') with (find_task k w). destruct (find_task k w); auto using quiet_row_refl.
    + rewrite !find_job_t, T, tfind_app. destruct (tfind j_id k (w_jobs w)); [apply quiet_job_refl|].
      destruct (N.eqb _ k); auto.
  - apply H. eapply Rb_trans; eauto.
Qed.
End Walk.
