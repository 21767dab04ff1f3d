(** A second layer of rely/guarantee reasoning: handlers run in executions whose every step is already known to
    satisfy [K] (the invariant of the first layer, and possibly assumptions about the execution). *)
From Verif Require Export InvMsgs.
Open Scope string_scope.
Open Scope list_scope.
Open Scope Z_scope.

Section X.
Variable K : world -> world -> Prop.
Variable I : world -> Prop.
Variable R : world -> world -> Prop.
Variable G : world -> world -> Prop.
Hypothesis R_refl : forall w, R w w.
Hypothesis R_trans : forall a b c, R a b -> R b c -> R a c.

Fixpoint wx {A} (w0 : world) (p : prog A) (Q : world -> outcome A -> Prop) : Prop :=
  match p with
  | Done o => Q w0 o
  | Step f k => forall w, R w0 w -> I w -> K w (fst (f w)) ->
      I (fst (f w)) /\ R w (fst (f w)) /\ G w (fst (f w)) /\ wx (fst (f w)) (k (snd (f w))) Q
  end.

Lemma wx_mono {A} (p : prog A) (Q : world -> outcome A -> Prop) w0 w1 :
  (forall w w' o, R w w' -> Q w o -> Q w' o) -> R w0 w1 -> wx w0 p Q -> wx w1 p Q.
Proof. destruct p as [o|B f k]; cbn; intros HQ HR H; eauto. Qed.
Lemma wx_conseq {A} (p : prog A) (Q Q' : world -> outcome A -> Prop) w0 :
  wx w0 p Q -> (forall w o, R w0 w -> Q w o -> Q' w o) -> wx w0 p Q'.
Proof.
  revert w0. induction p as [o|B f k IH]; cbn; intros w0 H HQ; [auto|].
  intros w Hr Hi Hk. destruct (H w Hr Hi Hk) as (H1 & H2 & H3 & H4). repeat split; auto.
  eapply IH; [exact H4|]. intros; eapply HQ; eauto.
Qed.
Lemma wx_bind {A B} (p : prog A) (f : A -> prog B) (Q : world -> outcome B -> Prop) w0 :
  wx w0 p (fun w o => match o with
                      | Ok a => wx w (f a) Q
                      | Err e m => Q w (Err e m)
                      | Panic => Q w Panic
                      | OutOfFuel => Q w OutOfFuel
                      end) -> wx w0 (bind p f) Q.
Proof.
  revert w0. induction p as [o|C g k IH]; cbn; intros w0 H.
  - destruct o; cbn; auto.
  - intros w Hr Hi Hk. destruct (H w Hr Hi Hk) as (H1 & H2 & H3 & H4). repeat split; auto.
Qed.
Lemma wx_catch {A} (p : prog A) h (Q : world -> outcome A -> Prop) w0 :
  wx w0 p (fun w o => match o with Err e m => wx w (h e m) Q | o => Q w o end) -> wx w0 (catch p h) Q.
Proof.
  revert w0. induction p as [o|C g k IH]; cbn; intros w0 H.
  - destruct o; cbn; auto.
  - intros w Hr Hi Hk. destruct (H w Hr Hi Hk) as (H1 & H2 & H3 & H4). repeat split; auto.
Qed.
Lemma wx_op {A} (f : act A) (Q : world -> outcome A -> Prop) w0 :
  (forall w, R w0 w -> I w -> K w (fst (f w)) ->
     I (fst (f w)) /\ R w (fst (f w)) /\ G w (fst (f w)) /\ Q (fst (f w)) (snd (f w))) -> wx w0 (op f) Q.
Proof. cbn. auto. Qed.
End X.

(** Executions all of whose steps satisfy [K]. *)
Section LiftX.
Variable O : oracle.
Variable K : world -> world -> Prop.
Variable I : world -> Prop.
Variable R : world -> world -> Prop.
Variable G : origin -> world -> world -> Prop.
Hypothesis R_refl : forall w, R w w.
Hypothesis R_trans : forall a b c, R a b -> R b c -> R a c.

Inductive execk : config -> list label -> config -> Prop :=
| execk_nil c : execk c [] c
| execk_snoc c1 ls c2 l c3 : execk c1 ls c2 -> step O c2 l c3 -> K (cw c2) (cw c3) -> execk c1 (ls ++ [l]) c3.

Hypothesis Hinit : forall clk fs, I (empty_world clk fs).
Hypothesis Hmsg : forall w m, K w w -> I w -> In m (w_hist w) ->
  wx K I R (G (OMsg m)) w (deliver O (N.to_nat (w_fresh w)) m) (fun _ _ => True).
Hypothesis Hapi : forall w o p, I w -> api_prog o = Some p -> api_ok o -> wx K I R (G o) w p (fun _ _ => True).
Hypothesis Henv : forall w c fs, I w -> K w (w <| w_clock := c |> <| w_faults := fs |>) ->
  I (w <| w_clock := c |> <| w_faults := fs |>) /\ R w (w <| w_clock := c |> <| w_faults := fs |>).
Hypothesis Hemit : forall w m, I w -> env_msg (w_hist w) m -> K w (w <| w_hist := w_hist w ++ [m] |>) ->
  I (w <| w_hist := w_hist w ++ [m] |>) /\ R w (w <| w_hist := w_hist w ++ [m] |>).

Definition thx (w : world) (th : origin * prog unit) : Prop := wx K I R (G (fst th)) w (snd th) (fun _ _ => True).
Definition cfgx (c : config) : Prop := I (cw c) /\ Forall (thx (cw c)) (cthreads c).

Lemma thx_mono w w' th : R w w' -> thx w th -> thx w' th.
Proof. unfold thx. intros HR. apply wx_mono; auto. Qed.

Lemma stepx c l c' : cfgx c -> step O c l c' -> K (cw c) (cw c') ->
  cfgx c' /\ R (cw c) (cw c') /\
  match l with LOp o => G o (cw c) (cw c') | _ => w_tasks (cw c') = w_tasks (cw c) /\ w_jobs (cw c') = w_jobs (cw c) end.
Proof.
  unfold cfgx. intros [HI H] S HK. destruct S; cbn [cw cthreads] in *.
  - split; [|auto]. split; [assumption|]. apply Forall_app; split; [exact H|]. constructor; [|constructor].
    unfold thx; cbn [fst snd]. auto.
  - split; [|auto]. split; [assumption|]. apply Forall_app; split; [exact H|]. constructor; [|constructor].
    unfold thx; cbn [fst snd]. eauto.
  - apply Forall_app in H as [H1 H2]. inversion H2 as [|? ? H3 H4]; subst.
    unfold thx in H3. cbn in H3.
    match goal with E : f w = _ |- _ => specialize (H3 w (R_refl w) HI); rewrite E in * end. cbn [fst snd] in *.
    destruct (H3 HK) as (HI' & HR & HG & HT).
    split; [|auto]. split; [assumption|]. apply Forall_app; split.
    + eapply Forall_impl; [|exact H1]. intros; eapply thx_mono; eauto.
    + constructor; [assumption|]. eapply Forall_impl; [|exact H4]. intros; eapply thx_mono; eauto.
  - split; [|auto]. split; [assumption|]. apply Forall_app in H as [H1 H2]. inversion H2; subst. apply Forall_app; auto.
  - destruct (Henv w c fs HI HK) as [HI' HR]. split; [|auto]. split; [assumption|].
    eapply Forall_impl; [|exact H]. intros; eapply thx_mono; eauto.
  - destruct (Hemit w m HI ltac:(assumption) HK) as [HI' HR]. split; [|auto]. split; [assumption|].
    eapply Forall_impl; [|exact H]. intros; eapply thx_mono; eauto.
Qed.
Lemma execkx c ls c' : cfgx c -> execk c ls c' -> cfgx c' /\ R (cw c) (cw c').
Proof.
  intros H E. induction E as [|c1 ls c2 l c3 E IH S HK]; [auto|]. destruct (IH H) as [H2 HR].
  destruct (stepx _ _ _ H2 S HK) as (?&?&_). eauto.
Qed.
Lemma initialx c : initial c -> cfgx c.
Proof. intros (clk & fs & ->). split; [apply Hinit|constructor]. Qed.
End LiftX.
