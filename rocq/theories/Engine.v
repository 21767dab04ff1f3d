(** C48: the life of an engine (engine/engine.go). *)
From Coq Require Import String List Bool.
Import ListNotations.
Open Scope list_scope.

(* ------------------------------------------------------------------ *)
(** * Model *)
(** engine.go:37-42 *)
Inductive estate := Idle | Running | Terminating | Terminated.
(** the goroutine started by runCoordinator/runWorker/runStandalone (engine.go:165-176, 190-201, 226-242):
    not started, waiting in awaitTerm, or finished (it closed e.terminated) *)
Inductive shutdown := GNone | GWaiting | GDone.
(** engine.go:44-60: state, mutex, configuration (mode, everything registered, runtime) *)
Record engine := mkEngine { e_state : estate; e_locked : bool; e_mode : string; e_registered : list string; e_runtime : option string; e_go : shutdown }.
(** calls on an engine.  [Register x]: the Register* methods for middlewares and endpoints (engine.go:253-293);
    [RegisterProvider x]: those for mounters (engine.go:295-305, runtime/multi.go:56-63), data stores and brokers (engine.go:317-335), which
    refuse a second registration of the same name, [x] being the kind and the name; [RegisterRuntime] refuses any second one (engine.go:307-315). *)
Inductive ecall := CStart (init_ok : bool) | CTerminate | CState | CSetMode (m : string) | CRegister (x : string) | CRegisterProvider (x : string) | CRegisterRuntime (r : string) | CSubmit.
Inductive eout := OOk | OErr | OPanic.
Definition known_mode (m : string) : bool := existsb (String.eqb m) ["coordinator"; "worker"; "standalone"]%string.
(** engine.go:339 *)
Definition submit_mode (m : string) : bool := existsb (String.eqb m) ["coordinator"; "standalone"]%string.

(** Observable steps.  Every call but SubmitJob takes the mutex for its whole duration; a panic releases it (defer).
    Terminate is two steps: it blocks on [e.terminate <- 1] until the goroutine receives, then waits for e.terminated
    (engine.go:127-137).  Simplification: the coordinator and worker Stop calls made on shutdown are part of the
    goroutine's single step to GDone; Run = Start plus waiting. *)
Inductive eevent :=
| ECall (c : ecall) (o : eout)        (* a call started and returned *)
| ETermBegin                          (* Terminate got the mutex, the engine is TERMINATING, it is sending on the channel *)
| ETermStop                           (* the goroutine received it and shut down *)
| ETermEnd                            (* Terminate returned *)
| ESignal.                            (* SIGINT/SIGTERM reached the goroutine, it shut down *)
Definition set_state (e : engine) s l g := mkEngine s l (e_mode e) (e_registered e) (e_runtime e) g.
Inductive estep : engine -> eevent -> engine -> Prop :=
| es_start_ok : forall e, e_locked e = false -> e_state e = Idle -> known_mode (e_mode e) = true ->                (* engine.go:98-118 *)
    estep e (ECall (CStart true) OOk) (set_state e Running false GWaiting)
| es_start_err : forall e b, e_locked e = false -> e_state e = Idle -> (b = false \/ known_mode (e_mode e) = false) ->
    estep e (ECall (CStart b) OErr) e
| es_state : forall e, e_locked e = false -> estep e (ECall CState OOk) e                                          (* engine.go:92-96 *)
| es_mode : forall e m, e_locked e = false -> e_state e = Idle ->                                                  (* engine.go:139-144 *)
    estep e (ECall (CSetMode m) OOk) (mkEngine Idle false m (e_registered e) (e_runtime e) (e_go e))
| es_reg : forall e x, e_locked e = false -> e_state e = Idle ->                                                   (* engine.go:253-293 *)
    estep e (ECall (CRegister x) OOk) (mkEngine Idle false (e_mode e) (x :: e_registered e) (e_runtime e) (e_go e))
| es_prov : forall e x, e_locked e = false -> e_state e = Idle -> ~ In x (e_registered e) ->
    estep e (ECall (CRegisterProvider x) OOk) (mkEngine Idle false (e_mode e) (x :: e_registered e) (e_runtime e) (e_go e))
| es_prov_twice : forall e x, e_locked e = false -> e_state e = Idle -> In x (e_registered e) -> estep e (ECall (CRegisterProvider x) OPanic) e
| es_rt : forall e r, e_locked e = false -> e_state e = Idle -> e_runtime e = None ->
    estep e (ECall (CRegisterRuntime r) OOk) (mkEngine Idle false (e_mode e) (e_registered e) (Some r) (e_go e))
| es_rt_twice : forall e r, e_locked e = false -> e_state e = Idle -> e_runtime e <> None -> estep e (ECall (CRegisterRuntime r) OPanic) e
| es_wrong : forall e c, e_locked e = false -> e_state e <> Idle ->                                                (* mustState, engine.go:247-251 *)
    match c with CStart _ | CSetMode _ | CRegister _ | CRegisterProvider _ | CRegisterRuntime _ => True | _ => False end ->
    estep e (ECall c OPanic) e
| es_term_wrong : forall e, e_locked e = false -> e_state e <> Running -> estep e (ECall CTerminate OPanic) e
| es_term_begin : forall e, e_locked e = false -> e_state e = Running -> estep e ETermBegin (set_state e Terminating true (e_go e))
| es_term_stop : forall e, e_state e = Terminating -> e_go e = GWaiting -> estep e ETermStop (set_state e Terminating (e_locked e) GDone)
| es_signal : forall e, e_go e = GWaiting -> estep e ESignal (set_state e (e_state e) (e_locked e) GDone)
| es_term_end : forall e, e_state e = Terminating -> e_locked e = true -> e_go e = GDone ->
    (* only after the send succeeded: see [term_sent] below *)
    estep e ETermEnd (set_state e Terminated false GDone)
| es_submit : forall e o, e_state e = Running -> submit_mode (e_mode e) = true -> o <> OPanic -> estep e (ECall CSubmit o) e (* engine.go:337-359: no mutex *)
| es_submit_wrong : forall e, e_state e <> Running \/ submit_mode (e_mode e) = false -> estep e (ECall CSubmit OPanic) e.
(** Terminate returns only if the goroutine received its message: an [ETermStop] precedes [ETermEnd]. *)
Inductive eruns : engine -> list eevent -> engine -> Prop :=
| er_nil : forall e, eruns e [] e
| er_step : forall e tr e1 ev e2, eruns e tr e1 -> estep e1 ev e2 -> (ev = ETermEnd -> In ETermStop tr) -> eruns e (tr ++ [ev]) e2.
(** engine.go:74-90 [New] *)
Definition new_engine (mode : string) : engine := mkEngine Idle false mode [] None GNone.

(* ------------------------------------------------------------------ *)
(** * Specification *)
Definition may_follow (a b : estate) : Prop :=
  a = b \/ (a = Idle /\ b = Running) \/ (a = Running /\ b = Terminating) \/ (a = Terminating /\ b = Terminated).

Lemma einv m tr e : eruns (new_engine m) tr e ->
  (e_locked e = true <-> e_state e = Terminating) /\ (e_state e = Idle <-> e_go e = GNone) /\ (In ETermStop tr -> e_go e = GDone) /\
  (In ETermStop tr -> e_state e = Terminating \/ e_state e = Terminated) /\
  (e_state e = Terminated -> e_go e = GDone) /\ (In ETermBegin tr <-> e_state e = Terminating \/ e_state e = Terminated) /\
  (e_go e = GDone <-> In ETermStop tr \/ In ESignal tr).
Proof.
  remember (new_engine m) as e0 eqn:E0. induction 1 as [|e tr e1 ev e2 Hr IH Hs Hc]; subst.
  - cbn. repeat split; try discriminate; try tauto; intros [|]; discriminate || tauto.
  - specialize (IH eq_refl). destruct IH as (I1 & I2 & I3 & I4 & I5 & I6 & I7).
    assert (Hin : forall x, In x (tr ++ [ev]) <-> In x tr \/ ev = x) by (intros x; rewrite in_app_iff; cbn; tauto).
    rewrite !Hin. clear Hin Hc Hr.
    inversion Hs; subst; cbn -[In] in *; repeat split; intros; intuition (try congruence; try discriminate).
Qed.

(** The state only moves along IDLE -> RUNNING -> TERMINATING -> TERMINATED. *)
Theorem C48_state_order : forall m tr e ev e', eruns (new_engine m) tr e -> estep e ev e' -> may_follow (e_state e) (e_state e').
Proof. intros m tr e ev e' _ Hs. unfold may_follow. inversion Hs; subst; cbn; auto. Qed.
Print Assumptions C48_state_order.

(** Start succeeds at most once, Terminate begins and ends at most once, and Terminate only after Start. *)
Definition started (ev : eevent) : bool := match ev with ECall (CStart _) OOk => true | _ => false end.
Definition begun (ev : eevent) : bool := match ev with ETermBegin => true | _ => false end.
Theorem C48_at_most_once : forall m tr e, eruns (new_engine m) tr e ->
  length (filter started tr) = (match e_state e with Idle => 0 | _ => 1 end) /\
  length (filter begun tr) = (match e_state e with Terminating | Terminated => 1 | _ => 0 end).
Proof.
  intros m tr e. remember (new_engine m) as e0 eqn:E0. induction 1 as [|e tr e1 ev e2 Hr IH Hs Hc]; subst; [split; reflexivity|].
  specialize (IH eq_refl) as [I1 I2]. rewrite !filter_app, !app_length, I1, I2.
  destruct Hs; try match goal with c : ecall |- _ => destruct c end; cbn; try contradiction;
    repeat match goal with |- context [e_state ?x] => destruct (e_state x) eqn:? end; split; cbn; reflexivity || congruence.
Qed.
Print Assumptions C48_at_most_once.

(** A call in the wrong state is rejected and changes nothing: not the state, not what is registered. *)
Theorem C48_wrong_state_rejected : forall m tr e c o e', eruns (new_engine m) tr e -> estep e (ECall c o) e' ->
  (match c with CStart _ | CSetMode _ | CRegister _ | CRegisterProvider _ | CRegisterRuntime _ => e_state e <> Idle | CTerminate | CSubmit => e_state e <> Running | CState => False end) ->
  o = OPanic /\ e' = e.
Proof.
  intros m tr e c o e' _ Hs Hw. inversion Hs; subst; cbn in Hw; try contradiction; try (exfalso; congruence); auto.
Qed.
Print Assumptions C48_wrong_state_rejected.

(** A job can be submitted exactly to a running coordinator or standalone engine. *)
Theorem C48_submit : forall m tr e o e', eruns (new_engine m) tr e -> estep e (ECall CSubmit o) e' ->
  e' = e /\ (o = OPanic <-> ~ (e_state e = Running /\ (e_mode e = "coordinator"%string \/ e_mode e = "standalone"%string))).
Proof.
  intros m tr e o e' _ Hs.
  assert (M : submit_mode (e_mode e) = true <-> e_mode e = "coordinator"%string \/ e_mode e = "standalone"%string).
  { unfold submit_mode. cbn. rewrite !orb_true_iff, !String.eqb_eq. intuition discriminate. }
  inversion Hs; subst; (split; [reflexivity|]); rewrite <- M.
  - contradiction.
  - intuition congruence.
  - split; [intros _ (A & B)|reflexivity]. match goal with H : _ \/ _ |- _ => destruct H end; congruence.
Qed.
Print Assumptions C48_submit.

(** A mounter, data store or broker name is registered at most once, a runtime at most once; what was registered stays. *)
Definition provides (x : string) (ev : eevent) : bool := match ev with ECall (CRegisterProvider y) OOk => String.eqb x y | _ => false end.
Definition sets_runtime (ev : eevent) : bool := match ev with ECall (CRegisterRuntime _) OOk => true | _ => false end.
Theorem C48_registered_once : forall m tr e, eruns (new_engine m) tr e ->
  (forall x, length (filter (provides x) tr) <= 1 /\ (In (ECall (CRegisterProvider x) OOk) tr -> In x (e_registered e))) /\
  length (filter sets_runtime tr) <= 1 /\ (forall r, In (ECall (CRegisterRuntime r) OOk) tr -> e_runtime e = Some r).
Proof.
  intros m tr e. remember (new_engine m) as e0 eqn:E0. induction 1 as [|e tr e1 ev e2 Hr IH Hs Hc]; subst.
  { cbn. repeat split; auto; intros; contradiction. }
  specialize (IH eq_refl) as (I1 & I2 & I3).
  assert (Q : forall x, length (filter (provides x) tr) = 0 \/ In x (e_registered e1)).
  { intros x. destruct (filter (provides x) tr) as [|y l] eqn:F; [left; reflexivity|right].
    assert (Hy : In y (filter (provides x) tr)) by (rewrite F; left; reflexivity). apply filter_In in Hy as [Hy P].
    destruct y as [c o| | | |]; try discriminate. destruct c; try discriminate. destruct o; try discriminate. cbn in P. apply String.eqb_eq in P. subst x0.
    exact (proj2 (I1 x) Hy). }
  assert (QR : length (filter sets_runtime tr) = 0 \/ e_runtime e1 <> None).
  { destruct (filter sets_runtime tr) as [|y l] eqn:F; [left; reflexivity|right].
    assert (Hy : In y (filter sets_runtime tr)) by (rewrite F; left; reflexivity). apply filter_In in Hy as [Hy P].
    destruct y as [c o| | | |]; try discriminate. destruct c; try discriminate. destruct o; try discriminate. rewrite (I3 _ Hy). discriminate. }
  assert (KR : forall x, In x (e_registered e1) -> In x (e_registered e2)) by (intros x Hx; inversion Hs; subst; cbn; auto).
  split; [intros x|].
  - destruct (I1 x) as [A B]. destruct (Q x) as [Z|Z].
    + split.
      * rewrite filter_app, app_length, Z. cbn. destruct (provides x ev); cbn; auto.
      * intros H. apply in_app_or in H as [H|[->|[]]]; [apply KR; auto|]. inversion Hs; subst; cbn; auto.
    + split; [|intros _; apply KR; exact Z]. rewrite filter_app, app_length. cbn.
      assert (P : provides x ev = false).
      { destruct ev as [c o| | | |]; try reflexivity. destruct c; try reflexivity. destruct o; try reflexivity. cbn.
        destruct (String.eqb_spec x x0) as [->|]; [|reflexivity]. inversion Hs; subst. contradiction. }
      rewrite P. cbn. rewrite PeanoNat.Nat.add_0_r. exact A.
  - assert (RT : sets_runtime ev = true -> e_runtime e1 = None).
    { destruct ev as [c o| | | |]; try discriminate. destruct c; try discriminate. destruct o; try discriminate. intros _. inversion Hs; subst. assumption. }
    split.
    + rewrite filter_app, app_length. cbn. destruct (sets_runtime ev) eqn:P; cbn; [|rewrite PeanoNat.Nat.add_0_r; exact I2].
      destruct QR as [->|QR]; [auto|]. specialize (RT eq_refl). contradiction.
    + intros r H. apply in_app_or in H as [H|[->|[]]].
      * specialize (I3 r H). inversion Hs; subst; cbn; auto. congruence.
      * inversion Hs; subst. reflexivity.
Qed.
Print Assumptions C48_registered_once.

(** What is registered changes only while IDLE. *)
Theorem C48_registered_before_start : forall m tr e ev e', eruns (new_engine m) tr e -> estep e ev e' -> e_state e <> Idle ->
  e_mode e' = e_mode e /\ e_registered e' = e_registered e /\ e_runtime e' = e_runtime e.
Proof. intros m tr e ev e' _ Hs Hi. inversion Hs; subst; cbn; auto; congruence. Qed.
Print Assumptions C48_registered_before_start.

(** If no signal ever reached the engine, Terminate always gets through: a running engine can be terminated. *)
Theorem C48_terminate_completes : forall m tr e, eruns (new_engine m) tr e -> ~ In ESignal tr -> e_state e = Terminating ->
  exists evs e', eruns (new_engine m) (tr ++ evs) e' /\ e_state e' = Terminated /\ e_locked e' = false.
Proof.
  intros m tr e Hr Hns Ht. destruct (einv m tr e Hr) as (I1 & I2 & I3 & I4 & I5 & I6 & I7).
  assert (Hl : e_locked e = true) by now apply I1.
  destruct (e_go e) eqn:Eg.
  - assert (e_state e = Idle) by now apply I2. congruence.
  - pose proof (er_step _ _ _ _ _ Hr (es_term_stop e Ht Eg) ltac:(discriminate)) as H1.
    pose proof (es_term_end (set_state e Terminating (e_locked e) GDone) eq_refl Hl eq_refl) as H2.
    pose proof (er_step _ _ _ _ _ H1 H2 ltac:(intros _; apply in_or_app; right; now left)) as H3.
    exists [ETermStop; ETermEnd]. eexists. split; [rewrite <- app_assoc in H3; exact H3|split; reflexivity].
  - destruct (proj1 I7 eq_refl) as [Hs|Hs]; [|contradiction].
    pose proof (er_step _ _ _ _ _ Hr (es_term_end e Ht Hl Eg) ltac:(auto)) as H1. exists [ETermEnd]. eexists. split; [exact H1|split; reflexivity].
Qed.
Print Assumptions C48_terminate_completes.

Lemma eruns_snoc e0 tr ev e2 : eruns e0 (tr ++ [ev]) e2 -> exists e1, eruns e0 tr e1 /\ estep e1 ev e2 /\ (ev = ETermEnd -> In ETermStop tr).
Proof.
  intros H. remember (tr ++ [ev]) as l eqn:E. destruct H as [|e0 tr' e1 ev' e2 H Hs Hc]; [destruct tr; discriminate|].
  apply app_inj_tail in E as [-> ->]. eauto.
Qed.
Lemma eruns_nil e0 e1 : eruns e0 [] e1 -> e1 = e0.
Proof. intros H. remember [] as l eqn:E. destruct H as [|e0 tr' e1 ev' e2 H Hs _]; [reflexivity|destruct tr'; discriminate]. Qed.
(** But after a shutdown by signal the engine still says RUNNING, and Terminate then blocks for ever holding the mutex:
    no call that needs it, not even State, ever returns. *)
Theorem C48_terminate_after_signal_hangs_refuted : exists tr e,
  eruns (new_engine "worker") tr e /\ e_state e = Terminating /\
  (forall tr' e', eruns (new_engine "worker") (tr ++ tr') e' -> (forall x, In x tr' -> x = ECall CSubmit OPanic) /\ e_state e' = Terminating).
Proof.
  pose (e := set_state (set_state (set_state (new_engine "worker") Running false GWaiting) Running false GDone) Terminating true GDone).
  exists ((([] ++ [ECall (CStart true) OOk]) ++ [ESignal]) ++ [ETermBegin]), e.
  assert (Hr : eruns (new_engine "worker") ((([] ++ [ECall (CStart true) OOk]) ++ [ESignal]) ++ [ETermBegin]) e).
  { eapply er_step; [eapply er_step; [eapply er_step; [apply er_nil|now apply es_start_ok|discriminate]|now apply es_signal|discriminate]|now apply es_term_begin|discriminate]. }
  split; [exact Hr|]. split; [reflexivity|].
  set (tr0 := (([] ++ [ECall (CStart true) OOk]) ++ [ESignal]) ++ [ETermBegin]) in *.
  assert (Uniq : forall tr1, eruns (new_engine "worker") tr0 tr1 -> tr1 = e).
  { intros e1 H. apply eruns_snoc in H as (e2 & H & S3 & _). apply eruns_snoc in H as (e3 & H & S2 & _). apply eruns_snoc in H as (e4 & H & S1 & _).
    apply eruns_nil in H. subst e4. inversion S1; subst. inversion S2; subst. inversion S3; subst. reflexivity. }
  assert (G : forall tr' e', eruns (new_engine "worker") (tr0 ++ tr') e' -> e' = e /\ forall x, In x tr' -> x = ECall CSubmit OPanic).
  { induction tr' as [|x tr' IH] using rev_ind; intros e2 H.
    - rewrite app_nil_r in H. split; [now apply Uniq|intros ? []].
    - rewrite app_assoc in H. apply eruns_snoc in H as (e1 & H & Hs & Hc). destruct (IH _ H) as [-> HI]. clear H.
      assert (Hx : x = ECall CSubmit OPanic /\ e2 = e).
      { inversion Hs; subst; cbn in *; try discriminate; try congruence; auto.
        exfalso. specialize (Hc eq_refl). repeat destruct Hc as [Hc|Hc]; try discriminate. apply HI in Hc. discriminate. }
      destruct Hx as [-> ->]. split; [reflexivity|]. intros y Hy. apply in_app_or in Hy as [Hy|[<-|[]]]; [auto|reflexivity]. }
  intros tr' e' H. destruct (G _ _ H) as [-> HI]. split; [exact HI|reflexivity].
Qed.
Print Assumptions C48_terminate_after_signal_hangs_refuted.

Example C48_nonvacuous : exists e, eruns (new_engine "standalone") ((((([] ++ [ECall (CRegister "mw") OOk]) ++ [ECall (CStart true) OOk]) ++ [ETermBegin]) ++ [ETermStop]) ++ [ETermEnd]) e /\ e_state e = Terminated.
Proof.
  eexists. split.
  - eapply er_step; [eapply er_step; [eapply er_step; [eapply er_step; [eapply er_step; [apply er_nil|now apply es_reg|discriminate]|now apply es_start_ok|discriminate]|now apply es_term_begin|discriminate]|now apply es_term_stop|discriminate]|now apply es_term_end|].
    intros _. cbn. auto.
  - reflexivity.
Qed.
