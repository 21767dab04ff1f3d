(** Proof rules: tables, rely/guarantee reasoning about programs, lifting to the machine. *)
From Verif Require Export SpecState.
Open Scope string_scope.
Open Scope list_scope.
Open Scope Z_scope.

Ltac ands := repeat match goal with |- _ /\ _ => split end.

(* ------------------------------------------------------------------ *)
(** * Keyed tables *)
Section Table.
Context {X : Type} (key : X -> id).
Definition tfind (i : id) (l : list X) : option X := find (fun x => N.eqb (key x) i) l.
Definition tput (u : X) (l : list X) : list X := map (fun x => if N.eqb (key x) (key u) then u else x) l.

Lemma tfind_key i l x : tfind i l = Some x -> key x = i.
Proof. intros H. apply find_some in H as [_ H]. now apply N.eqb_eq in H. Qed.
Lemma tfind_in i l x : tfind i l = Some x -> In x l.
Proof. intros H. now apply find_some in H. Qed.
Lemma tfind_put_same u l x : tfind (key u) l = Some x -> tfind (key u) (tput u l) = Some u.
Proof.
  unfold tfind, tput. induction l as [|a l IH]; cbn; [easy|].
  destruct (N.eqb (key a) (key u)) eqn:E; cbn.
  - now rewrite N.eqb_refl.
  - rewrite E. apply IH.
Qed.
Lemma tfind_put_other u l i : i <> key u -> tfind i (tput u l) = tfind i l.
Proof.
  intros Hn. unfold tfind, tput. induction l as [|a l IH]; cbn; [easy|].
  destruct (N.eqb (key a) (key u)) eqn:E; cbn.
  - apply N.eqb_eq in E. destruct (N.eqb (key u) i) eqn:E2.
    + apply N.eqb_eq in E2. now subst.
    + rewrite E, E2. apply IH.
  - destruct (N.eqb (key a) i); [easy|apply IH].
Qed.
Lemma tfind_app i l x : tfind i (l ++ [x]) =
  match tfind i l with Some y => Some y | None => if N.eqb (key x) i then Some x else None end.
Proof.
  unfold tfind. induction l as [|a l IH]; cbn; [easy|].
  destruct (N.eqb (key a) i); [easy|apply IH].
Qed.
Lemma tfind_none i l : existsb (fun x => N.eqb (key x) i) l = false <-> tfind i l = None.
Proof.
  unfold tfind. induction l as [|a l IH]; cbn; [easy|].
  destruct (N.eqb (key a) i); cbn; [easy|apply IH].
Qed.
Lemma tput_keys u l : map key (tput u l) = map key l.
Proof.
  unfold tput. rewrite map_map. apply map_ext. intros x.
  destruct (N.eqb (key x) (key u)) eqn:E; [|easy]. now apply N.eqb_eq in E.
Qed.

(** Row-wise relation between two versions of a table: rows never disappear, existing rows
    are related by [R], new rows satisfy [C]. *)
Definition trel (R : X -> X -> Prop) (C : X -> Prop) (l l' : list X) : Prop :=
  forall i, match tfind i l, tfind i l' with
            | Some x, Some x' => R x x'
            | Some _, None => False
            | None, Some x' => C x'
            | None, None => True
            end.

Lemma trel_refl (R : X -> X -> Prop) C l : (forall x, R x x) -> trel R C l l.
Proof. intros HR i. destruct (tfind i l); auto. Qed.
Lemma trel_put (R : X -> X -> Prop) C l u u' i :
  (forall x, R x x) -> tfind i l = Some u -> key u' = key u -> R u u' -> trel R C l (tput u' l).
Proof.
  intros HR Hf Hk Hu i'. pose proof (tfind_key _ _ _ Hf) as Hi. subst i.
  destruct (N.eq_dec i' (key u')) as [->|Hn].
  - rewrite <- Hk in Hf. rewrite Hf, (tfind_put_same _ _ _ Hf). exact Hu.
  - rewrite (tfind_put_other _ _ _ Hn). destruct (tfind i' l); auto.
Qed.
Lemma trel_app (R : X -> X -> Prop) (C : X -> Prop) l x :
  (forall x, R x x) -> tfind (key x) l = None -> C x -> trel R C l (l ++ [x]).
Proof.
  intros HR Hn HC i. rewrite tfind_app. destruct (tfind i l) eqn:E; [auto|].
  destruct (N.eqb (key x) i); auto.
Qed.
Lemma trel_trans (R : X -> X -> Prop) (C : X -> Prop) l1 l2 l3 :
  (forall x y z, R x y -> R y z -> R x z) -> (forall x y, C x -> R x y -> C y) ->
  trel R C l1 l2 -> trel R C l2 l3 -> trel R C l1 l3.
Proof.
  intros HT HC H1 H2 i. specialize (H1 i); specialize (H2 i).
  destruct (tfind i l1), (tfind i l2), (tfind i l3); eauto; try contradiction.
Qed.
Lemma trel_impl (R R' : X -> X -> Prop) (C C' : X -> Prop) l1 l2 :
  (forall x y, R x y -> R' x y) -> (forall x, C x -> C' x) -> trel R C l1 l2 -> trel R' C' l1 l2.
Proof.
  intros HR HC H i. specialize (H i). destruct (tfind i l1), (tfind i l2); auto.
Qed.
End Table.

Lemma find_task_t i w : find_task i w = tfind t_id i (w_tasks w). Proof. reflexivity. Qed.
Lemma find_job_t i w : find_job i w = tfind j_id i (w_jobs w). Proof. reflexivity. Qed.
Lemma put_task_t u l : put_task u l = tput t_id u l. Proof. reflexivity. Qed.
Lemma put_job_t u l : put_job u l = tput j_id u l. Proof. reflexivity. Qed.

(* ------------------------------------------------------------------ *)
(** * Rely/guarantee *)
Section RG.
Variable I : world -> Prop.              (* invariant, holds between any two operations *)
Variable R : world -> world -> Prop.     (* what may have happened since (a preorder) *)
Variable G : world -> world -> Prop.     (* what each single operation guarantees *)
Hypothesis R_refl : forall w, R w w.
Hypothesis R_trans : forall a b c, R a b -> R b c -> R a c.

Fixpoint wp {A} (w0 : world) (p : prog A) (Q : world -> outcome A -> Prop) : Prop :=
  match p with
  | Done o => Q w0 o
  | Step f k => forall w, R w0 w -> I w ->
      I (fst (f w)) /\ R w (fst (f w)) /\ G w (fst (f w)) /\ wp (fst (f w)) (k (snd (f w))) Q
  end.

Definition mono {A} (Q : world -> outcome A -> Prop) : Prop :=
  forall w w' o, R w w' -> Q w o -> Q w' o.

Lemma wp_mono {A} (p : prog A) Q w0 w1 : mono Q -> R w0 w1 -> wp w0 p Q -> wp w1 p Q.
Proof. destruct p as [o|B f k]; cbn; intros HQ HR H; eauto. Qed.

Lemma wp_conseq {A} (p : prog A) (Q Q' : world -> outcome A -> Prop) w0 :
  (forall w o, Q w o -> Q' w o) -> wp w0 p Q -> wp w0 p Q'.
Proof.
  intros HQ. revert w0. induction p as [o|B f k IH]; cbn; intros w0 H; [auto|].
  intros w Hr Hi. destruct (H w Hr Hi) as (H1 & H2 & H3 & H4). repeat split; auto.
Qed.

Lemma wp_conseq_rely {A} (p : prog A) (Q Q' : world -> outcome A -> Prop) w0 :
  (forall w o, R w0 w -> Q w o -> Q' w o) -> wp w0 p Q -> wp w0 p Q'.
Proof.
  revert w0. induction p as [o|B f k IH]; cbn; intros w0 HQ H; [auto|].
  intros w Hr Hi. destruct (H w Hr Hi) as (H1 & H2 & H3 & H4). repeat split; auto.
  eapply IH; [|exact H4]. intros; eapply HQ; eauto.
Qed.

Lemma wp_bind {A B} (p : prog A) (f : A -> prog B) Q w0 :
  wp w0 p (fun w o => match o with
                      | Ok a => wp w (f a) Q
                      | Err e m => Q w (Err e m)
                      | Panic => Q w Panic
                      | OutOfFuel => Q w OutOfFuel
                      end) -> wp w0 (bind p f) Q.
Proof.
  revert w0. induction p as [o|C g k IH]; cbn; intros w0 H.
  - destruct o; cbn; auto.
  - intros w Hr Hi. destruct (H w Hr Hi) as (H1 & H2 & H3 & H4). repeat split; auto.
Qed.

Lemma wp_catch {A} (p : prog A) h Q w0 :
  wp w0 p (fun w o => match o with
                      | Err e m => wp w (h e m) Q
                      | o => Q w o
                      end) -> wp w0 (catch p h) Q.
Proof.
  revert w0. induction p as [o|C g k IH]; cbn; intros w0 H.
  - destruct o; cbn; auto.
  - intros w Hr Hi. destruct (H w Hr Hi) as (H1 & H2 & H3 & H4). repeat split; auto.
Qed.

Lemma wp_op {A} (f : act A) Q w0 :
  (forall w, R w0 w -> I w -> I (fst (f w)) /\ R w (fst (f w)) /\ G w (fst (f w)) /\ Q (fst (f w)) (snd (f w))) ->
  wp w0 (op f) Q.
Proof. cbn. auto. Qed.

Lemma wp_done {A} (o : outcome A) (Q : world -> outcome A -> Prop) w0 : Q w0 o -> wp w0 (Done o) Q.
Proof. auto. Qed.

End RG.

(** The special case without a rely: facts about outcomes are those that hold whenever they are obtained. *)
Definition T2 (w w' : world) : Prop := True.
Definition dummy_world : world := mkWorld [] [] [] [] 0%N 0 [] [].
Definition guar {A} (I : world -> Prop) (G : world -> world -> Prop) (p : prog A) (Q : outcome A -> Prop) : Prop :=
  wp I T2 G dummy_world p (fun _ o => Q o).
Definition any {A} (o : outcome A) : Prop := True.

Section Guar.
Variable I : world -> Prop.
Variable G : world -> world -> Prop.

Lemma wp_T_irrel {A} (p : prog A) (Q : outcome A -> Prop) w w' :
  wp I T2 G w p (fun _ o => Q o) -> wp I T2 G w' p (fun _ o => Q o).
Proof. apply wp_mono; unfold mono, T2; auto. Qed.

Lemma guar_done {A} (o : outcome A) (Q : outcome A -> Prop) : Q o -> guar I G (Done o) Q.
Proof. unfold guar; cbn; auto. Qed.
Lemma guar_op {A} (f : act A) (Q : outcome A -> Prop) :
  (forall w, I w -> I (fst (f w)) /\ G w (fst (f w)) /\ Q (snd (f w))) -> guar I G (op f) Q.
Proof. intros H. unfold guar. apply wp_op. intros w _ HI. destruct (H w HI) as (?&?&?). unfold T2. auto. Qed.
Lemma guar_bind {A B} (p : prog A) (f : A -> prog B) (Q : outcome B -> Prop) :
  guar I G p (fun o => match o with
                     | Ok a => guar I G (f a) Q
                     | Err e m => Q (Err e m)
                     | Panic => Q Panic
                     | OutOfFuel => Q OutOfFuel end) -> guar I G (bind p f) Q.
Proof.
  unfold guar. intros H. apply wp_bind. eapply wp_conseq; [|exact H].
  intros w o Ho. destruct o; auto. eapply wp_T_irrel, Ho.
Qed.
Lemma guar_catch {A} (p : prog A) h (Q : outcome A -> Prop) :
  guar I G p (fun o => match o with Err e m => guar I G (h e m) Q | o => Q o end) -> guar I G (catch p h) Q.
Proof.
  unfold guar. intros H. apply wp_catch. eapply wp_conseq; [|exact H].
  intros w o Ho. destruct o; auto. eapply wp_T_irrel, Ho.
Qed.
Lemma guar_conseq {A} (p : prog A) (Q Q' : outcome A -> Prop) :
  (forall o, Q o -> Q' o) -> guar I G p Q -> guar I G p Q'.
Proof. unfold guar. intros H. apply wp_conseq. intros; auto. Qed.
Lemma guar_any {A} (p : prog A) (Q : outcome A -> Prop) : guar I G p Q -> guar I G p any.
Proof. apply guar_conseq. unfold any; auto. Qed.
Lemma guar_step {A B} (f : act B) (k : outcome B -> prog A) w :
  I w -> guar I G (Step f k) any -> I (fst (f w)) /\ G w (fst (f w)) /\ guar I G (k (snd (f w))) any.
Proof.
  unfold guar; cbn. intros HI H. destruct (H w Logic.I HI) as (? & _ & H1 & H2).
  repeat split; auto. eapply wp_T_irrel, H2.
Qed.
End Guar.

Lemma guar_weaken_G {A} I (G G' : world -> world -> Prop) (p : prog A) Q :
  (forall w w', G w w' -> G' w w') -> guar I G p Q -> guar I G' p Q.
Proof.
  intros HG. unfold guar. generalize dummy_world. induction p as [o|B f k IH]; cbn; intros w0 H; [auto|].
  intros w Hr Hi. destruct (H w Hr Hi) as (?&?&?&?). auto.
Qed.

(** Lifting to the machine: if every handler program started for [o] preserves the invariant and guarantees [G o]
    at each operation, then so does every step of every execution; [Q o] constrains the outcomes. *)
Section Lift.
Variable O : oracle.
Variable I : world -> Prop.
Variable R : world -> world -> Prop.
Variable G : origin -> world -> world -> Prop.
Variable Q : origin -> outcome unit -> Prop.
Hypothesis R_refl : forall w, R w w.
Hypothesis R_trans : forall a b c, R a b -> R b c -> R a c.
Hypothesis Hinit : forall clk fs, I (empty_world clk fs).
Hypothesis Hmsg : forall w m, I w -> In m (w_hist w) ->
  wp I R (G (OMsg m)) w (deliver O (N.to_nat (w_fresh w)) m) (fun _ => Q (OMsg m)).
Hypothesis Hapi : forall w o p, I w -> api_prog o = Some p -> api_ok o -> wp I R (G o) w p (fun _ => Q o).
Hypothesis Henv : forall w c fs, I w ->
  I (w <| w_clock := c |> <| w_faults := fs |>) /\ R w (w <| w_clock := c |> <| w_faults := fs |>).
Hypothesis Hemit : forall w m, I w -> env_msg (w_hist w) m ->
  I (w <| w_hist := w_hist w ++ [m] |>) /\ R w (w <| w_hist := w_hist w ++ [m] |>).

Definition th_ok (w : world) (th : origin * prog unit) : Prop := wp I R (G (fst th)) w (snd th) (fun _ => Q (fst th)).
Definition config_ok (c : config) : Prop := I (cw c) /\ Forall (th_ok (cw c)) (cthreads c).

Lemma th_ok_mono w w' th : R w w' -> th_ok w th -> th_ok w' th.
Proof. unfold th_ok. intros HR. apply wp_mono; auto. unfold mono; auto. Qed.
Lemma th_step w o B (f : act B) k : I w -> th_ok w (o, Step f k) ->
  I (fst (f w)) /\ R w (fst (f w)) /\ G o w (fst (f w)) /\ th_ok (fst (f w)) (o, k (snd (f w))).
Proof. unfold th_ok; cbn. intros HI H. apply (H w (R_refl w) HI). Qed.

Lemma step_config_ok c l c' : config_ok c -> step O c l c' -> config_ok c' /\ R (cw c) (cw c').
Proof.
  unfold config_ok. intros [HI H] S. destruct S; cbn [cw cthreads] in *.
  - split; [|auto]. split; [assumption|]. apply Forall_app; split; [exact H|]. constructor; [|constructor].
    unfold th_ok; cbn [fst snd]. auto.
  - split; [|auto]. split; [assumption|]. apply Forall_app; split; [exact H|]. constructor; [|constructor].
    unfold th_ok; cbn [fst snd]. eauto.
  - apply Forall_app in H as [H1 H2]. inversion H2 as [|? ? H3 H4]; subst.
    apply th_step in H3 as (HI' & HR & _ & HT); [|assumption].
    match goal with E : f w = _ |- _ => rewrite E in * end. cbn [fst snd] in *.
    split; [|assumption]. split; [assumption|]. apply Forall_app; split.
    + eapply Forall_impl; [|exact H1]. intros; eapply th_ok_mono; eauto.
    + constructor; [assumption|]. eapply Forall_impl; [|exact H4]. intros; eapply th_ok_mono; eauto.
  - split; [|auto]. split; [assumption|]. apply Forall_app in H as [H1 H2]. inversion H2; subst. apply Forall_app; auto.
  - destruct (Henv w c fs HI) as [HI' HR]. split; [|assumption]. split; [assumption|].
    eapply Forall_impl; [|exact H]. intros; eapply th_ok_mono; eauto.
  - destruct (Hemit w m HI ltac:(assumption)) as [HI' HR]. split; [|assumption]. split; [assumption|].
    eapply Forall_impl; [|exact H]. intros; eapply th_ok_mono; eauto.
Qed.

Lemma exec_config_ok c ls c' : config_ok c -> exec O c ls c' -> config_ok c' /\ R (cw c) (cw c').
Proof.
  intros H E. induction E as [|c1 ls c2 l c3 E IH S]; [auto|]. destruct (IH H) as [H2 HR].
  destruct (step_config_ok _ _ _ H2 S). eauto.
Qed.

Lemma initial_config_ok c : initial c -> config_ok c.
Proof. intros (clk & fs & ->). split; [apply Hinit|constructor]. Qed.

Lemma reachable_config_ok c : reachable O c -> config_ok c.
Proof. intros (c0 & ls & Hi & E). eapply exec_config_ok; [|exact E]. now apply initial_config_ok. Qed.

Lemma op_guarantee c o c' : config_ok c -> step O c (LOp o) c' -> G o (cw c) (cw c').
Proof.
  intros [HI H] S. inversion S; subst. cbn [cw cthreads] in *.
  apply Forall_app in H as [_ H]. inversion H as [|? ? H3 H4]; subst.
  apply th_step in H3 as (_ & _ & HG & _); [|assumption].
  match goal with E : f w = _ |- _ => rewrite E in *; exact HG end.
Qed.
Lemma done_outcome c o r : config_ok c -> In (o, Done r) (cthreads c) -> Q o r.
Proof. intros [_ H] Hin. rewrite Forall_forall in H. apply H in Hin. exact Hin. Qed.
End Lift.
