(** C70: submissions that wait for the job (POST /jobs with "wait") and the events they wait for.
    internal/coordinator/api/api.go:318-352 (the wait branch of createJob), 363-387 (SubmitJob), input/job.go:72-77 (ID),
    broker/inmemory.go:27-74, 273-303 (topics), handlers/job.go:150, 152, 234 (the only job events). *)
From Verif Require Import EffectCount SimWhere PropsState PropsFan PropsComposite PropsEffect PropsEffectCases.
Open Scope string_scope.
Open Scope list_scope.

(* ------------------------------------------------------------------ *)
(** * The waiting request *)

(** Where the request's goroutine is. *)
Inductive phase := PSubscribe | PSubmit | PSelect | PReturned (e : option N) | PAnswered.
(** A document written to a response: the job as JSON, or an error with its status. *)
Inductive doc := DJob (j : job) | DError (status : N).

Record wst := mkWst {
  q_phase : phase;
  q_id : option id;          (* ji.id, generated on first use *)
  q_submitted : option id;   (* the id of the job that was stored and published *)
  q_closed : bool;           (* ch was closed *)
  q_owner : option N;        (* the request the echo context [c] belongs to now: 0 is this one, None: it is in the pool *)
  q_out : list (N * doc);    (* what was written, to which request's response *)
  q_crashed : bool           (* the goroutine that delivers the events panicked: the process ends *)
}.
Definition wst0 : wst := mkWst PSubscribe None None false (Some 0%N) [] false.

(** input/job.go:72-77. [n] is the identifier uuid.NewUUID would return. Simplification: check and assignment are one step
    (in the code the event handler and the request race here, see DESIGN section 6). *)
Definition the_id (n : id) (s : wst) : id := match q_id s with Some i => i | None => n end.
Definition set_id (n : id) (s : wst) : wst :=
  mkWst (q_phase s) (Some (the_id n s)) (q_submitted s) (q_closed s) (q_owner s) (q_out s) (q_crashed s).
(** api.go:331 *)
Definition ends (j : job) : bool := match j_state j with JCompleted | JFailed | JCancelled => true | _ => false end.
(** writing to [c] (echo: the response of the request the context was last reset for; nowhere useful when it is in the pool) *)
Definition write (d : doc) (s : wst) : wst :=
  mkWst (q_phase s) (q_id s) (q_submitted s) (q_closed s) (q_owner s)
    (match q_owner s with Some r => q_out s ++ [(r, d)] | None => q_out s end) (q_crashed s).
(** api.go:335: close panics when the channel is closed already, and nothing on that goroutine recovers *)
Definition close_ch (s : wst) : wst :=
  mkWst (q_phase s) (q_id s) (q_submitted s) true (q_owner s) (q_out s) (q_crashed s || q_closed s).
Definition crash (s : wst) : wst :=
  mkWst (q_phase s) (q_id s) (q_submitted s) (q_closed s) (q_owner s) (q_out s) true.
(** api.go:324-338: the handler given to SubscribeForEvents. [None]: the event is not a *tork.Job; the code logs it and then
    reads a field of the nil pointer. *)
Definition on_event (n : id) (ev : option job) (s : wst) : wst :=
  match ev with
  | None => crash s
  | Some j => let s := set_id n s in
              if (N.eqb (the_id n s) (j_id j) && ends j)%bool then close_ch (write (DJob j) s) else s
  end.
Definition goto (p : phase) (s : wst) : wst :=
  mkWst p (q_id s) (q_submitted s) (q_closed s) (q_owner s) (q_out s) (q_crashed s).
Definition submitted (n : id) (s : wst) : wst :=
  mkWst PSelect (Some (the_id n s)) (Some (the_id n s)) (q_closed s) (q_owner s) (q_out s) (q_crashed s).
Definition owned (r : option N) (s : wst) : wst :=
  mkWst (q_phase s) (q_id s) (q_submitted s) (q_closed s) r (q_out s) (q_crashed s).

(** why the request stopped waiting: api.go:344-351 *)
Inductive reason := Gone | Shutdown | TimedOut | Ended.
Definition status_of (r : reason) : option N :=
  match r with Gone => Some 408%N | Shutdown => Some 500%N | TimedOut => Some 408%N | Ended => None end.

Inductive wlabel :=
| WSubscribed (ok : bool) | WEvent (n : id) (ev : option job) | WSubmit (n : id) (ok : bool)
| WWoke (r : reason) | WAnswer | WRelease | WReuse (r : N).

(** The events of any goroutine, in any order. The in-memory broker ignores the request's context and never removes the
    subscription; the RabbitMQ broker removes it some time after the request ended (C68_event_subscription_ends): with both, events can
    still arrive after the answer. *)
Inductive wstep : wst -> wlabel -> wst -> Prop :=
(** api.go:323, 338-340; an error here is answered 500 *)
| ws_subscribed s ok : q_crashed s = false -> q_phase s = PSubscribe ->
    wstep s (WSubscribed ok) (goto (if ok then PSubmit else PReturned (Some 500%N)) s)
| ws_event s n ev : q_crashed s = false -> q_phase s <> PSubscribe -> wstep s (WEvent n ev) (on_event n ev s)
(** api.go:341-343, 363-387: refused (validation, store or broker error) or stored and published *)
| ws_refused s n : q_crashed s = false -> q_phase s = PSubmit -> wstep s (WSubmit n false) (goto (PReturned (Some 400%N)) s)
| ws_submit s n : q_crashed s = false -> q_phase s = PSubmit -> wstep s (WSubmit n true) (submitted n s)
(** api.go:344-352: any ready case may be chosen *)
| ws_woke s r : q_crashed s = false -> q_phase s = PSelect -> (r = Ended -> q_closed s = true) ->
    wstep s (WWoke r) (goto (PReturned (status_of r)) s)
(** echo: an error is written unless the response was started; nil writes nothing *)
| ws_answer s e : q_crashed s = false -> q_phase s = PReturned e ->
    wstep s WAnswer (goto PAnswered (match e with
                                     | Some st => match q_out s with [] => write (DError st) s | _ => s end
                                     | None => s
                                     end))
(** echo: the context goes back to the pool, and is reset for a later request *)
| ws_release s : q_crashed s = false -> q_phase s = PAnswered -> q_owner s = Some 0%N -> wstep s WRelease (owned None s)
| ws_reuse s r : q_crashed s = false -> q_phase s = PAnswered -> q_owner s <> Some 0%N -> r <> 0%N -> wstep s (WReuse r) (owned (Some r) s).

Inductive wrun : wst -> list wlabel -> wst -> Prop :=
| wr_nil s : wrun s [] s
| wr_snoc s1 l s2 a s3 : wrun s1 l s2 -> wstep s2 a s3 -> wrun s1 (l ++ [a]) s3.

(* ------------------------------------------------------------------ *)
(** * Specification *)

(** what the client of this request receives: the documents written to its response *)
Definition received (s : wst) : list doc := map snd (filter (fun x => N.eqb (fst x) 0) (q_out s)).
(** the jobs of the events delivered so far *)
Definition delivered (l : list wlabel) : list job :=
  flat_map (fun a => match a with WEvent _ (Some j) => [j] | _ => [] end) l.
Definition all_jobs (l : list wlabel) : Prop := forall n, ~ In (WEvent n None) l.
(** the events this request waits for *)
Definition awaited (i : id) (l : list wlabel) : list job :=
  filter (fun j => (N.eqb (j_id j) i && match j_state j with JCompleted | JFailed | JCancelled => true | _ => false end)%bool) (delivered l).
(** the request is still waiting or deciding: nothing was answered *)
Definition unanswered (s : wst) : Prop := q_phase s <> PAnswered.

(* ------------------------------------------------------------------ *)
(** * The events of the coordinator *)

(** C70 (events). In every execution the only events are job.completed and job.failed, each carries a job without a parent in
    the state its topic names, and that job is stored. In particular no event reports a cancelled job. *)
Theorem C70_events : forall O c tp j, reachable O c -> In (MEvent tp j) (w_hist (cw c)) ->
  j_parent j = noid /\
  ((tp = "job.completed" /\ j_state j = JCompleted) \/ (tp = "job.failed" /\ j_state j = JFailed)) /\
  exists u, find_job (j_id j) (cw c) = Some u /\ j_tasks u = j_tasks j /\ j_output u = j_output j.
Proof.
  intros O c tp j HR Hin. destruct (cfg_reachable O c HR) as [HI _].
  apply (inv_hist _ HI) in Hin. cbn [msg_ok] in Hin. destruct Hin as ((u & E & Hd) & Hp & Hs).
  split; [exact Hp|]. split; [exact Hs|]. exists u. apply jdef_proj in Hd. intuition.
Qed.
Print Assumptions C70_events.

(* ------------------------------------------------------------------ *)
(** * The invariant of one waiting request *)
Definition eqid (i : id) (o : option id) : Prop := match o with Some k => k = i | None => True end.
Record WInv (l : list wlabel) (s : wst) : Prop := {
  wi_sub : q_submitted s <> None -> q_id s = q_submitted s;
  wi_owner : q_owner s <> Some 0%N -> q_phase s = PAnswered;
  wi_jobs : forall r j, In (r, DJob j) (q_out s) -> In j (delivered l) /\ ends j = true /\ q_id s = Some (j_id j) /\ q_closed s = true;
  wi_ended : q_phase s = PReturned None -> exists j, In (0%N, DJob j) (q_out s);
  wi_first : unanswered s -> forall r d, In (r, d) (q_out s) -> r = 0%N /\ exists j, d = DJob j;
  wi_closed : q_closed s = true -> unanswered s -> exists j, In (0%N, DJob j) (q_out s)
}.

Lemma delivered_app l1 l2 : delivered (l1 ++ l2) = delivered l1 ++ delivered l2.
Proof. apply flat_map_app. Qed.

Lemma winv0 : WInv [] wst0.
Proof. constructor; cbn; try easy. Qed.

Lemma winv_step l s a s' : WInv l s -> wstep s a s' -> WInv (l ++ [a]) s'.
Proof.
  intros [I1 I2 I3 I4 I5 I6] St.
  assert (Hd : forall j, In j (delivered l) -> In j (delivered (l ++ [a]))) by (intros j Hj; rewrite delivered_app; apply in_or_app; auto).
  inversion St; subst; clear St.
  - constructor; cbn; auto.
    + intros H1. specialize (I2 H1). congruence.
    + intros r j Hj. destruct (I3 r j Hj) as (?&?&?&?). auto.
    + destruct ok; discriminate.
    + intros _. apply I5. intros E. congruence.
    + intros Hc _. apply I6; [exact Hc|]. intros E. congruence.
  - destruct ev as [j|]; cbn [on_event].
    2:{ constructor; cbn; auto. intros r j Hj. destruct (I3 r j Hj) as (?&?&?&?). auto. }
    assert (Hid : the_id n (set_id n s) = the_id n s) by reflexivity. rewrite Hid.
    assert (Hj : In j (delivered (l ++ [WEvent n (Some j)]))) by (rewrite delivered_app; apply in_or_app; right; left; reflexivity).
    assert (Hkeep : q_submitted s <> None -> Some (the_id n s) = q_submitted s).
    { intros Hs. specialize (I1 Hs). unfold the_id. rewrite I1. destruct (q_submitted s); [reflexivity|easy]. }
    assert (Hold : forall r j0, In (r, DJob j0) (q_out s) -> Some (the_id n s) = Some (j_id j0)).
    { intros r j0 H1. destruct (I3 r j0 H1) as (_&_&E&_). unfold the_id. rewrite E. reflexivity. }
    destruct (N.eqb (the_id n s) (j_id j) && ends j)%bool eqn:Ee.
    + apply andb_true_iff in Ee as [Ei Et]. apply N.eqb_eq in Ei.
      assert (Hout : forall r d, In (r, d) (match q_owner s with Some r0 => q_out s ++ [(r0, DJob j)] | None => q_out s end) ->
                In (r, d) (q_out s) \/ (q_owner s = Some r /\ d = DJob j)).
      { destruct (q_owner s) as [r0|]; intros r d H1; [|auto]. apply in_app_or in H1 as [H1|[H1|[]]]; [auto|]. injection H1 as -> <-. auto. }
      constructor; cbn; auto.
      * intros r j0 H1. apply Hout in H1 as [H1|[_ H1]].
        -- destruct (I3 r j0 H1) as (?&?&?&?). split; [auto|]. split; [auto|]. split; [eauto|reflexivity].
        -- injection H1 as ->. split; [exact Hj|]. split; [exact Et|]. split; [now rewrite Ei|reflexivity].
      * intros Hp. destruct (I4 Hp) as [j0 H1]. exists j0. destruct (q_owner s); [apply in_or_app; auto|auto].
      * intros Hu r d H1. apply Hout in H1 as [H1|[Ho ->]]; [exact (I5 Hu r d H1)|].
        split; [|eauto]. destruct (N.eq_dec r 0) as [->|Hn]; [reflexivity|]. exfalso. apply Hu. apply I2. congruence.
      * intros _ Hu. destruct (q_owner s) as [r|] eqn:Ho; [|exfalso; apply Hu, I2; discriminate].
        destruct (N.eq_dec r 0) as [->|Hn]; [|exfalso; apply Hu, I2; congruence].
        exists j. apply in_or_app. right. left. reflexivity.
    + constructor; cbn; auto.
      * intros r j0 H1. destruct (I3 r j0 H1) as (?&?&?&?). split; [auto|]. split; [auto|]. split; [eauto|auto].
  - constructor; cbn; auto.
    + intros H1. specialize (I2 H1). congruence.
    + intros r j Hj. destruct (I3 r j Hj) as (?&?&?&?). auto.
    + discriminate.
    + intros _. apply I5. intros E. congruence.
    + intros Hc _. apply I6; [exact Hc|]. intros E. congruence.
  - assert (Hold : forall r j0, In (r, DJob j0) (q_out s) -> Some (the_id n s) = Some (j_id j0)).
    { intros r j0 H1. destruct (I3 r j0 H1) as (_&_&E&_). unfold the_id. rewrite E. reflexivity. }
    constructor; cbn; auto.
    + intros H1. specialize (I2 H1). congruence.
    + intros r j Hj. destruct (I3 r j Hj) as (?&?&?&?). split; [auto|]. split; [auto|]. split; [eauto|auto].
    + discriminate.
    + intros _. apply I5. intros E. congruence.
    + intros Hc _. apply I6; [exact Hc|]. intros E. congruence.
  - assert (Hu : unanswered s) by (intros E; congruence). constructor; cbn; auto.
    + intros H1'. specialize (I2 H1'). congruence.
    + intros r0 j Hj. destruct (I3 r0 j Hj) as (?&?&?&?). auto.
    + intros E. apply I6; [|exact Hu]. apply H1. destruct r; try discriminate. reflexivity.
  - assert (Hu : unanswered s) by (intros E; congruence).
    assert (Hown : q_owner s = Some 0%N).
    { destruct (q_owner s) as [r|] eqn:Ho; [destruct (N.eq_dec r 0) as [->|Hn]; [reflexivity|]|]; exfalso; apply Hu, I2; congruence. }
    destruct e as [st|].
    + destruct (q_out s) as [|x o] eqn:Eo.
      * assert (Hq : q_out (goto PAnswered (write (DError st) s)) = [(0%N, DError st)]) by (cbn; now rewrite Hown, Eo).
        constructor; auto; try discriminate.
        -- intros r j Hin. rewrite Hq in Hin. destruct Hin as [Hin|[]]. discriminate.
        -- intros Hx. exfalso. apply Hx. reflexivity.
        -- intros _ Hx. exfalso. apply Hx. reflexivity.
      * constructor; auto; try discriminate.
        -- intros r j Hj. cbn in Hj. rewrite Eo in Hj. destruct (I3 r j Hj) as (?&?&?&?). auto.
        -- intros Hx. exfalso. apply Hx. reflexivity.
        -- intros _ Hx. exfalso. apply Hx. reflexivity.
    + constructor; auto; try discriminate.
      intros r j Hj. destruct (I3 r j Hj) as (?&?&?&?). auto.
  - constructor; cbn; auto.
    intros r j Hj. destruct (I3 r j Hj) as (?&?&?&?). auto.
  - constructor; cbn; auto.
    intros r0 j Hj. destruct (I3 r0 j Hj) as (?&?&?&?). auto.
Qed.

Lemma winv_run l s : wrun wst0 l s -> WInv l s.
Proof.
  intros H. remember wst0 as s0 eqn:E0. induction H as [|s1 l s2 a s3 H IH St]; subst; [apply winv0|]. eapply winv_step; eauto.
Qed.

Lemma received_in s d : In d (received s) <-> In (0%N, d) (q_out s).
Proof.
  unfold received. rewrite in_map_iff. split.
  - intros ([r d'] & E & H). cbn in E. subst d'. apply filter_In in H as [H E]. cbn in E. apply N.eqb_eq in E. now subst.
  - intros H. exists (0%N, d). split; [reflexivity|]. apply filter_In. auto.
Qed.

(** C70 (content). Whatever the schedule, a job document the client receives is the job of an event delivered to this request,
    in a terminal state, and it is the job this request submitted. *)
Theorem C70_content : forall l s i j, wrun wst0 l s -> q_submitted s = Some i -> In (DJob j) (received s) ->
  In j (awaited i l).
Proof.
  intros l s i j H Hs Hin. apply winv_run in H. destruct H as [I1 _ I3 _ _ _].
  apply received_in in Hin. destruct (I3 _ _ Hin) as (Hd & He & Hi & _).
  rewrite I1 in Hi by congruence. assert (j_id j = i) by congruence. unfold awaited. apply filter_In. split; [exact Hd|].
  apply andb_true_iff. split; [now apply N.eqb_eq|exact He].
Qed.
Print Assumptions C70_content.

(** the first document, once written, stays the first *)
Lemma out_grows s a s' : wstep s a s' -> exists x, q_out s' = q_out s ++ x.
Proof.
  intros St. inversion St; subst; cbn; try (exists []; now rewrite app_nil_r).
  - destruct ev as [j|]; cbn; [|exists []; now rewrite app_nil_r].
    destruct (_ && _)%bool; cbn; [|exists []; now rewrite app_nil_r].
    destruct (q_owner s); [eauto|exists []; now rewrite app_nil_r].
  - destruct e as [st|]; [|exists []; now rewrite app_nil_r]. destruct (q_out s) eqn:E; cbn; [|rewrite E; exists []; now rewrite app_nil_r].
    rewrite E. destruct (q_owner s); cbn; eauto.
Qed.
Lemma received_grows s l s' : wrun s l s' -> exists x, received s' = received s ++ x.
Proof.
  induction 1 as [|s1 l s2 a s3 H IH St]; [exists []; now rewrite app_nil_r|]. destruct IH as [x Ex]. destruct (out_grows _ _ _ St) as [y Ey].
  unfold received in *. rewrite Ey, filter_app, map_app, Ex, <- app_assoc. eauto.
Qed.

(** C70 (delivery). If the job ends (an event of the submitted job, completed, failed or cancelled, is delivered) before the
    request was answered, the client's response starts with a job document - status 200 - however the wait then ends. *)
Theorem C70_reported : forall l s n j s1 l2 s2, wrun wst0 l s -> unanswered s -> q_submitted s = Some (j_id j) ->
  (j_state j = JCompleted \/ j_state j = JFailed \/ j_state j = JCancelled) ->
  wstep s (WEvent n (Some j)) s1 -> wrun s1 l2 s2 ->
  exists j' rest, received s2 = DJob j' :: rest.
Proof.
  intros l s n j s1 l2 s2 H Hu Hs Hj St H2. apply winv_run in H. pose proof (winv_step _ _ _ _ H St) as HI1.
  assert (Hu1 : unanswered s1). { inversion St; subst. cbn. destruct (_ && _)%bool; exact Hu. }
  assert (Hc : q_closed s1 = true).
  { inversion St; subst. unfold on_event. cbv zeta. assert (Hid : the_id n (set_id n s) = j_id j).
    { unfold the_id, set_id. cbn. unfold the_id. destruct H as [I1 _ _ _ _ _]. rewrite I1 by congruence. now rewrite Hs. }
    rewrite Hid, N.eqb_refl. assert (He : ends j = true) by (unfold ends; destruct Hj as [->|[->| ->]]; reflexivity).
    rewrite He. reflexivity. }
  destruct (received_grows _ _ _ H2) as [x Ex]. destruct HI1 as [_ _ _ _ I5 I6].
  destruct (I6 Hc Hu1) as [j0 H0]. apply received_in in H0.
  assert (Hall : forall d, In d (received s1) -> exists j1, d = DJob j1).
  { intros d Hd. apply received_in in Hd. apply (I5 Hu1) in Hd as [_ Hd]. exact Hd. }
  rewrite Ex. destruct (received s1) as [|d r]; [destruct H0|]. destruct (Hall d (or_introl eq_refl)) as [j1 ->]. cbn. eauto.
Qed.
Print Assumptions C70_reported.

(** C70 (errors). If no event of the submitted job ending it was delivered, the client receives nothing or one error document
    (400, 408 or 500), never a job. *)
Theorem C70_otherwise_error : forall l s, wrun wst0 l s -> (forall i, q_submitted s = Some i -> awaited i l = []) ->
  (q_submitted s = None -> forall j, In j (delivered l) -> q_id s <> Some (j_id j)) ->
  received s = [] \/ exists e, received s = [DError e] /\ (e = 400 \/ e = 408 \/ e = 500)%N.
Proof.
  assert (Hst : forall l s, wrun wst0 l s -> (forall e, q_phase s = PReturned (Some e) -> (e = 400 \/ e = 408 \/ e = 500)%N) /\
            (forall r e, In (r, DError e) (q_out s) -> (e = 400 \/ e = 408 \/ e = 500)%N) /\
            (unanswered s -> forall r e, ~ In (r, DError e) (q_out s)) /\
            ((forall r j, ~ In (r, DJob j) (q_out s)) -> (length (q_out s) <= 1)%nat)).
  { intros l s H. remember wst0 as s0 eqn:E0. induction H as [|s1 l s2 a s3 H IH St]; subst.
    { cbn. repeat match goal with |- _ /\ _ => split end; try easy; try lia. }
    specialize (IH eq_refl). destruct IH as (I1 & I2 & I3 & I4). pose proof (winv_run _ _ H) as HI.
    assert (I3' : q_phase s2 <> PAnswered -> (forall r j, ~ In (r, DJob j) (q_out s2)) -> q_out s2 = []).
    { intros Hu Hn. destruct (q_out s2) as [|[r d] o] eqn:Eo; [reflexivity|]. exfalso.
      destruct d as [j|e]; [apply (Hn r j); now left|apply (I3 Hu r e); now left]. }
    inversion St; subst; cbn.
    - assert (Hu : unanswered s2) by (intros E; congruence).
      split; [intros e He; destruct ok; [discriminate|injection He as <-; auto]|]. split; [exact I2|]. split; [intros _; exact (I3 Hu)|exact I4].
    - destruct ev as [j|]; cbn; [|repeat match goal with |- _ /\ _ => split end; auto].
      destruct (_ && _)%bool; cbn; [|repeat match goal with |- _ /\ _ => split end; auto].
      split; [exact I1|]. destruct (q_owner s2) as [r0|]; [|repeat match goal with |- _ /\ _ => split end; auto].
      split; [intros r e Hin; apply in_app_or in Hin as [Hin|[Hin|[]]]; [eauto|discriminate]|].
      split; [intros Hu r e Hin; apply in_app_or in Hin as [Hin|[Hin|[]]]; [exact (I3 Hu _ _ Hin)|discriminate]|].
      intros Hn. exfalso. apply (Hn r0 j). apply in_or_app. right. now left.
    - assert (Hu : unanswered s2) by (intros E; congruence).
      split; [intros e He; injection He as <-; auto|]. split; [exact I2|]. split; [intros _; exact (I3 Hu)|exact I4].
    - assert (Hu : unanswered s2) by (intros E; congruence).
      split; [discriminate|]. split; [exact I2|]. split; [intros _; exact (I3 Hu)|exact I4].
    - assert (Hu : unanswered s2) by (intros E; congruence).
      split; [intros e He; destruct r; try discriminate; injection He as <-; auto|]. split; [exact I2|]. split; [intros _; exact (I3 Hu)|exact I4].
    - assert (Hu : unanswered s2) by (intros E; congruence). split; [discriminate|].
      destruct e as [st|]; [destruct (q_out s2) as [|x o] eqn:Eo|]; cbn; rewrite ?Eo.
      + specialize (I1 _ H1). destruct (q_owner s2) as [r0|]; cbn; rewrite ?Eo.
        * split; [intros r e [Hin|[]]; injection Hin as <- <-; auto|]. split; [intros Hx; exfalso; apply Hx; reflexivity|intros _; lia].
        * split; [intros r e []|]. split; [intros Hx; exfalso; apply Hx; reflexivity|intros _; lia].
      + split; [exact I2|]. split; [intros Hx; exfalso; apply Hx; reflexivity|exact I4].
      + split; [exact I2|]. split; [intros Hx; exfalso; apply Hx; reflexivity|exact I4].
    - split; [exact I1|]. split; [exact I2|]. split; [exact I3|exact I4].
    - split; [exact I1|]. split; [exact I2|]. split; [exact I3|exact I4]. }
  intros l s H Hn Hn'. pose proof (winv_run _ _ H) as HI. destruct (Hst _ _ H) as (_ & S2 & _ & S4).
  assert (Hnj : forall r j, ~ In (r, DJob j) (q_out s)).
  { intros r j Hin. destruct HI as [I1 _ I3 _ _ _]. destruct (I3 _ _ Hin) as (Hd & He & Hi & _).
    destruct (q_submitted s) as [i|] eqn:Es.
    - specialize (Hn i eq_refl). assert (In j (awaited i l)); [|rewrite Hn in *; auto].
      unfold awaited. apply filter_In. split; [exact Hd|]. apply andb_true_iff. split; [|exact He].
      apply N.eqb_eq. rewrite I1 in Hi by discriminate. congruence.
    - exact (Hn' eq_refl j Hd Hi). }
  specialize (S4 Hnj). unfold received. destruct (q_out s) as [|[r d] [|? ?]]; [auto| |cbn in S4; lia].
  destruct d as [j|e]; [exfalso; apply (Hnj r j); now left|]. cbn. destruct (N.eqb r 0); [|auto]. right. exists e. split; [reflexivity|].
  apply (S2 r e). now left.
Qed.
Print Assumptions C70_otherwise_error.

(** C70 (which error). 400 only if the submission was refused, 408 only if the client left or the time ran out, 500 only if the
    subscription failed or the coordinator is shutting down. *)
Theorem C70_error_status : forall l s e, wrun wst0 l s -> In (DError e) (received s) ->
  (e = 400%N /\ exists n, In (WSubmit n false) l) \/
  (e = 408%N /\ (In (WWoke Gone) l \/ In (WWoke TimedOut) l)) \/
  (e = 500%N /\ (In (WSubscribed false) l \/ In (WWoke Shutdown) l)).
Proof.
  set (P := fun (l : list wlabel) e => (e = 400%N /\ exists n, In (WSubmit n false) l) \/
    (e = 408%N /\ (In (WWoke Gone) l \/ In (WWoke TimedOut) l)) \/
    (e = 500%N /\ (In (WSubscribed false) l \/ In (WWoke Shutdown) l))).
  assert (Hm : forall l a e, P l e -> P (l ++ [a]) e).
  { intros l a e [[-> [n H]]|[[-> H]|[-> H]]]; [left; split; [reflexivity|exists n; apply in_or_app; now left]
    |right; left; split; [reflexivity|]; destruct H; [left|right]; apply in_or_app; now left
    |right; right; split; [reflexivity|]; destruct H; [left|right]; apply in_or_app; now left]. }
  assert (Hlast : forall l (a : wlabel), In a (l ++ [a])) by (intros; apply in_or_app; right; now left).
  assert (HI : forall l s, wrun wst0 l s -> (forall e, q_phase s = PReturned (Some e) -> P l e) /\
            (forall r e, In (r, DError e) (q_out s) -> P l e)).
  { intros l s H. remember wst0 as s0 eqn:E0. induction H as [|s1 l s2 a s3 H IH St]; subst; [cbn; split; easy|].
    destruct (IH eq_refl) as [I1 I2]. clear IH.
    inversion St; subst; cbn [q_phase q_out goto submitted owned].
    - split; [|intros; eauto]. intros e He. destruct ok; [discriminate|]. injection He as <-. right. right. split; [reflexivity|]. left. apply Hlast.
    - destruct ev as [j|]; cbn; [|split; intros; eauto].
      destruct (_ && _)%bool; cbn; [|split; intros; eauto]. split; [intros; eauto|].
      intros r e. destruct (q_owner s2); [|eauto]. intros Hin. apply in_app_or in Hin as [Hin|[Hin|[]]]; [eauto|discriminate].
    - split; [|intros; eauto]. intros e He. injection He as <-. left. split; [reflexivity|]. exists n. apply Hlast.
    - split; [discriminate|intros; eauto].
    - split; [|intros; eauto]. intros e He. destruct r; cbn in He; try discriminate; injection He as <-; unfold P.
      + right; left; split; [reflexivity|]; left; apply Hlast.
      + right; right; split; [reflexivity|]; right; apply Hlast.
      + right; left; split; [reflexivity|]; right; apply Hlast.
    - split; [discriminate|]. intros r e0. destruct e as [st|]; [|intros; eauto].
      destruct (q_out s2) as [|p o] eqn:Eo; [|rewrite Eo; intros; eauto]. cbn. rewrite Eo. destruct (q_owner s2); cbn; [|easy].
      intros [Hin|[]]. injection Hin as _ <-. apply Hm. now apply I1.
    - split; [intros; eauto|intros; eauto].
    - split; [intros; eauto|intros; eauto]. }
  intros l s e H Hin. destruct (HI l s H) as [_ I]. unfold received in Hin. apply in_map_iff in Hin as [[r d] [E Hin]].
  apply filter_In in Hin as [Hin _]. cbn in E. subst d. exact (I r e Hin).
Qed.
Print Assumptions C70_error_status.

(** C70 (no crash). If every event is a job and the events end the submitted job at most once, the coordinator does not crash. *)
Theorem C70_no_crash : forall l s, wrun wst0 l s -> all_jobs l -> (forall i, length (awaited i l) <= 1)%nat -> q_crashed s = false.
Proof.
  assert (Haw : forall i l a, awaited i (l ++ [a]) = awaited i l ++ awaited i [a]).
  { intros i l a. unfold awaited. now rewrite delivered_app, filter_app. }
  assert (Hc : forall l s, wrun wst0 l s -> q_closed s = true -> exists i, q_id s = Some i /\ awaited i l <> []).
  { intros l s H. remember wst0 as s0 eqn:E0. induction H as [|s1 l s2 a s3 H IH St]; subst; [discriminate|]. specialize (IH eq_refl).
    assert (Hw : forall i, awaited i l <> [] -> awaited i (l ++ [a]) <> []).
    { intros i Hi E. apply Hi. rewrite Haw in E. now apply app_eq_nil in E. }
    inversion St; subst; try (intros Hx; destruct (IH Hx) as (i & E & Hi); exists i; split; [exact E|auto]; fail).
    - unfold on_event. cbv zeta. destruct ev as [j|]; [|intros Hx; destruct (IH Hx) as (i & E & Hi); exists i; split; [exact E|auto]].
      destruct (N.eqb (the_id n (set_id n s2)) (j_id j) && ends j)%bool eqn:Ee.
      + apply andb_true_iff in Ee as [Ei Et]. change (the_id n (set_id n s2)) with (the_id n s2) in Ei.
        intros _. exists (j_id j). apply N.eqb_eq in Ei.
        assert (Hj : awaited (j_id j) [WEvent n (Some j)] = [j]).
        { unfold awaited. cbn. rewrite N.eqb_refl. unfold ends in Et. destruct (j_state j); easy. }
        split; [|rewrite Haw, Hj; intros E; apply app_eq_nil in E as [_ E]; discriminate].
        cbn. now rewrite Ei.
      + intros Hx. assert (Hx' : q_closed s2 = true) by exact Hx.
        destruct (IH Hx') as (i & E & Hi). exists i. split; [|auto]. cbn. unfold the_id. now rewrite E.
    - intros Hx. destruct (IH Hx) as (i & E & Hi). exists i. split; [|auto]. cbn. unfold the_id. now rewrite E.
    - intros Hx. assert (Hx' : q_closed s2 = true) by (destruct e; [destruct (q_out s2)|]; exact Hx).
      destruct (IH Hx') as (i & E & Hi). exists i. split; [|auto]. destruct e; [destruct (q_out s2)|]; exact E. }
  intros l s H. remember wst0 as s0 eqn:E0. induction H as [|s1 l s2 a s3 H IH St]; subst; [reflexivity|]. intros Hj Hl.
  assert (Hc2 : q_crashed s2 = false) by (inversion St; assumption).
  inversion St; subst; cbn; auto.
  - destruct ev as [j|]; [|exfalso; apply (Hj n); apply in_or_app; right; now left].
    cbn [on_event]. destruct (N.eqb (the_id n (set_id n s2)) (j_id j) && ends j)%bool eqn:Ee; [|exact Hc2].
    cbn. rewrite Hc2. cbn. destruct (q_closed s2) eqn:Ec; [|reflexivity]. exfalso.
    apply andb_true_iff in Ee as [Ei Et]. apply N.eqb_eq in Ei. destruct (Hc _ _ H Ec) as (i & Eid & Hi).
    assert (i = j_id j). { rewrite <- Ei. unfold the_id, set_id. cbn. unfold the_id. now rewrite Eid. } subst i.
    specialize (Hl (j_id j)). rewrite Haw, app_length in Hl.
    assert (Hj1 : awaited (j_id j) [WEvent n (Some j)] = [j]).
    { unfold awaited. cbn. rewrite N.eqb_refl. unfold ends in Et. destruct (j_state j); easy. }
    rewrite Hj1 in Hl. cbn in Hl. destruct (awaited (j_id j) l); [easy|cbn in Hl; lia].
  - destruct e as [st|]; [destruct (q_out s2)|]; exact Hc2.
Qed.
Print Assumptions C70_no_crash.

(** C70 (the whole). A client that submits a job and waits, and whose response starts with a job document (status 200), gets the
    job it submitted, with no parent, COMPLETED or FAILED - never CANCELLED - whatever the execution of the coordinators that
    produced the events and whatever the schedule of the request. *)
Theorem C70_wait : forall O c l s i j rest, reachable O c ->
  wrun wst0 l s -> (forall x, In x (delivered l) -> exists tp, In (MEvent tp x) (w_hist (cw c))) ->
  q_submitted s = Some i -> received s = DJob j :: rest ->
  j_id j = i /\ j_parent j = noid /\ (j_state j = JCompleted \/ j_state j = JFailed) /\
  exists u, find_job i (cw c) = Some u /\ j_tasks u = j_tasks j /\ j_output u = j_output j.
Proof.
  intros O c l s i j rest HR H Hev Hs Hr.
  assert (Hin : In j (awaited i l)) by (eapply C70_content; eauto; rewrite Hr; now left).
  unfold awaited in Hin. apply filter_In in Hin as [Hd He]. apply andb_true_iff in He as [Hi _]. apply N.eqb_eq in Hi.
  destruct (Hev _ Hd) as [tp Hm]. destruct (C70_events O c tp j HR Hm) as (Hp & Hst & Hu).
  split; [exact Hi|]. split; [exact Hp|]. split; [destruct Hst as [[_ ?]|[_ ?]]; auto|]. now rewrite <- Hi.
Qed.
Print Assumptions C70_wait.

(* ------------------------------------------------------------------ *)
(** * Non-vacuity and findings *)

(** two tasks of a parallel task fail before either failure is handled; every message is delivered once *)
Definition both_fail : list cmd := par_start ++ [CFail 3 "e1"; CFail 4 "e2"; CDeliver 5; CRun 4 100; CDeliver 6; CRun 5 100].
Definition both_failed : config := sim_c O0 start both_fail.
Definition deliveries (ls : list label) : list msg := flat_map (fun l => match l with LDeliver m => [m] | _ => [] end) ls.
Definition failures (i : id) (h : list msg) : list job :=
  flat_map (fun m => match m with MEvent tp j => if (String.eqb tp "job.failed" && N.eqb (j_id j) i)%bool then [j] else [] | _ => [] end) h.
Definition key (m : msg) : string * id :=
  match m with MTask q t => (q, t_id t) | MProgress t => ("p", t_id t) | MJob j => ("j", j_id j) | MEvent tp j => (tp, j_id j) | MHeartbeat n => ("h", 0%N) end.

Lemma both_exec : exec O0 start (sim_l O0 start both_fail) both_failed.
Proof. unfold both_failed. ran. Qed.
Lemma both_reachable : reachable O0 both_failed.
Proof. exists start, (sim_l O0 start both_fail). split; [do 2 eexists; reflexivity|exact both_exec]. Qed.

(** Finding: one failed job, no message delivered twice, and yet two job.failed events. *)
Theorem C70_one_failure_event_refuted : exists O ls c, (exists c0, initial c0 /\ exec O c0 ls c) /\ NoDup (deliveries ls) /\
  length (failures 1%N (w_hist (cw c))) = 2%nat.
Proof.
  exists O0, (sim_l O0 start both_fail), both_failed. split; [|split].
  - exists start. split; [|exact both_exec]. do 2 eexists. reflexivity.
  - apply (NoDup_map_inv key). vm_compute.
    repeat match goal with |- NoDup (_ :: _) => constructor; [cbn; intros HH; repeat (destruct HH as [HH|HH]; [discriminate HH|]); exact HH|] end. constructor.
  - vm_compute. reflexivity.
Qed.
Print Assumptions C70_one_failure_event_refuted.

Definition two_of (l : list job) : bool :=
  match l with [j1; j2] => (N.eqb (j_id j1) 1%N && ends j1 && (N.eqb (j_id j2) 1%N && ends j2))%bool | _ => false end.
Lemma two_of_spec l : two_of l = true -> exists j1 j2, l = [j1; j2] /\ j_id j1 = 1%N /\ ends j1 = true /\ j_id j2 = 1%N /\ ends j2 = true.
Proof.
  destruct l as [|j1 [|j2 [|]]]; try discriminate. intros H. exists j1, j2. cbn [two_of] in H.
  repeat (apply andb_true_iff in H as [H ?] || apply andb_true_iff in H1 as [H1 ?]).
  repeat match goal with H : (_ && _)%bool = true |- _ => apply andb_true_iff in H as [? ?] | H : N.eqb _ _ = true |- _ => apply N.eqb_eq in H end.
  auto.
Qed.
Lemma two_failures : two_of (failures 1%N (w_hist (cw both_failed))) = true.
Proof. vm_compute. reflexivity. Qed.
(** the waiting request for that job: the second event crashes the coordinator (close of a closed channel) *)
Definition waiting : list wlabel := [WSubscribed true; WSubmit 1%N true].
Ltac wgo := repeat first [apply wr_nil | eapply wr_snoc].

Lemma wrun_one s a s' : wstep s a s' -> wrun s [a] s'.
Proof. intros H. change [a] with ([] ++ [a]). eapply wr_snoc; [apply wr_nil|exact H]. Qed.
Lemma wrun_app s1 l1 s2 l2 s3 : wrun s1 l1 s2 -> wrun s2 l2 s3 -> wrun s1 (l1 ++ l2) s3.
Proof.
  intros H H2. induction H2 as [|s l s' a s'' H2 IH St]; [now rewrite app_nil_r|]. rewrite app_assoc. eapply wr_snoc; [apply IH, H|exact St].
Qed.
Lemma wrun_cons s a s' l s'' : wstep s a s' -> wrun s' l s'' -> wrun s (a :: l) s''.
Proof. intros H H2. change (a :: l) with ([a] ++ l). eapply wrun_app; [apply wrun_one, H|exact H2]. Qed.

Definition w_sub : wst := mkWst PSelect (Some 1%N) (Some 1%N) false (Some 0%N) [] false.
Lemma waiting_run : wrun wst0 waiting w_sub.
Proof.
  eapply wrun_cons; [exact (ws_subscribed wst0 true eq_refl eq_refl)|].
  exact (wrun_one _ _ _ (ws_submit (goto PSubmit wst0) 1%N eq_refl eq_refl)).
Qed.

Theorem C70_crash_refuted : exists O c l s i, reachable O c /\ wrun wst0 l s /\ q_submitted s = Some i /\
  (forall x, In x (delivered l) -> exists tp, In (MEvent tp x) (w_hist (cw c))) /\ all_jobs l /\ q_crashed s = true.
Proof.
  pose proof both_reachable as HR.
  pose proof two_failures as HT. revert HR HT. generalize both_failed. intros both_failed HR HT.
  destruct (two_of_spec _ HT) as (j1 & j2 & Ef & K1 & T1 & K2 & T2). clear HT.
  assert (Hf : forall x, In x (failures 1%N (w_hist (cw both_failed))) -> exists tp, In (MEvent tp x) (w_hist (cw both_failed))).
  { intros x Hx. unfold failures in Hx. apply in_flat_map in Hx as (m & Hm & Hx). destruct m; try easy.
    destruct (_ && _)%bool; [|easy]. destruct Hx as [<-|[]]. eauto. }
  exists O0, both_failed, (waiting ++ [WEvent 9%N (Some j1); WEvent 9%N (Some j2)]), (on_event 9%N (Some j2) (on_event 9%N (Some j1) w_sub)), 1%N.
  split; [exact HR|]. split; [|split; [|split; [|split]]].
  - eapply wrun_app; [exact waiting_run|]. eapply wrun_cons; [apply ws_event; [reflexivity|discriminate]|].
    eapply wrun_cons; [apply ws_event|apply wr_nil].
    + unfold on_event. cbv zeta. cbn [the_id set_id q_id w_sub]. rewrite K1, T1. reflexivity.
    + unfold on_event. cbv zeta. cbn [the_id set_id q_id w_sub]. rewrite K1, T1. discriminate.
  - unfold on_event. cbv zeta. cbn [the_id set_id q_id w_sub]. rewrite K1, T1. cbn. rewrite K2, T2. reflexivity.
  - intros x [<-|[<-|[]]]; apply Hf; rewrite Ef; cbn; auto.
  - intros n Hin. cbn in Hin. repeat (destruct Hin as [Hin|Hin]; [discriminate Hin|]). exact Hin.
  - unfold on_event. cbv zeta. cbn [the_id set_id q_id w_sub]. rewrite K1, T1. cbn. rewrite K2, T2. reflexivity.
Qed.
Print Assumptions C70_crash_refuted.

(** the hypotheses of C70_wait are met: the job fails while the client waits *)
Example C70_nonvacuous : exists O c l s j, reachable O c /\ wrun wst0 l s /\
  (forall x, In x (delivered l) -> exists tp, In (MEvent tp x) (w_hist (cw c))) /\ q_submitted s = Some 1%N /\ received s = [DJob j] /\
  q_phase s = PAnswered /\ q_crashed s = false.
Proof.
  pose proof both_reachable as HR. pose proof two_failures as HT. revert HR HT. generalize both_failed. intros both_failed HR HT.
  destruct (two_of_spec _ HT) as (j1 & j2 & Ef & K1 & T1 & _). clear HT.
  assert (Hf : forall x, In x (failures 1%N (w_hist (cw both_failed))) -> exists tp, In (MEvent tp x) (w_hist (cw both_failed))).
  { intros x Hx. unfold failures in Hx. apply in_flat_map in Hx as (m & Hm & Hx). destruct m; try easy.
    destruct (_ && _)%bool; [|easy]. destruct Hx as [<-|[]]. eauto. }
  assert (E : on_event 9%N (Some j1) w_sub = mkWst PSelect (Some 1%N) (Some 1%N) true (Some 0%N) [(0%N, DJob j1)] false).
  { unfold on_event. cbv zeta. cbn [the_id set_id q_id w_sub]. rewrite K1, T1. reflexivity. }
  exists O0, both_failed, (waiting ++ [WEvent 9%N (Some j1); WWoke Ended; WAnswer]). do 2 eexists. split; [exact HR|]. split; [|split; [|split; [|split; [|split]]]].
  - eapply wrun_app; [exact waiting_run|]. eapply wrun_cons; [apply ws_event; [reflexivity|discriminate]|]. rewrite E.
    eapply wrun_cons; [apply (ws_woke _ Ended); reflexivity|]. eapply wrun_cons; [eapply ws_answer; reflexivity|]. apply wr_nil.
  - intros x [<-|[]]; apply Hf; rewrite Ef; cbn; auto.
  - reflexivity.
  - reflexivity.
  - reflexivity.
  - reflexivity.
Qed.

(** Finding: an event that arrives after the wait timed out is written to the response of whichever request the echo context was
    given to since: another client receives the whole job. *)
Theorem C70_other_client_refuted : exists l s j r, wrun wst0 l s /\ q_crashed s = false /\ (forall i, length (awaited i l) <= 1)%nat /\
  q_submitted s = Some (j_id j) /\ received s = [DError 408%N] /\ r <> 0%N /\ In (r, DJob j) (q_out s).
Proof.
  pose (j := (demo_job []) <| j_id := 1%N |> <| j_state := JCompleted |>).
  exists (waiting ++ [WWoke TimedOut; WAnswer; WRelease; WReuse 7%N; WEvent 9%N (Some j)]). do 3 eexists.
  split; [|split; [|split; [|split; [|split; [|split]]]]].
  - eapply wrun_app; [exact waiting_run|]. eapply wrun_cons; [exact (ws_woke w_sub TimedOut eq_refl eq_refl (fun H => match H with eq_refl => I end))|].
    eapply wrun_cons; [eapply ws_answer; reflexivity|]. eapply wrun_cons; [apply ws_release; reflexivity|].
    eapply wrun_cons; [apply (ws_reuse _ 7%N); [reflexivity|reflexivity|discriminate|discriminate]|].
    eapply wrun_cons; [apply ws_event; [reflexivity|discriminate]|]. apply wr_nil.
  - reflexivity.
  - intros i. unfold awaited. cbn [delivered flat_map waiting app filter]. match goal with |- context [if ?b then _ else _] => destruct b end; cbn; lia.
  - instantiate (1 := j). reflexivity.
  - reflexivity.
  - instantiate (1 := 7%N). discriminate.
  - right. left. reflexivity.
Qed.
Print Assumptions C70_other_client_refuted.

(** Finding: between the error and the release of the context the event is appended to the error document. *)
Theorem C70_one_document_refuted : exists l s j, wrun wst0 l s /\ q_crashed s = false /\ (forall i, length (awaited i l) <= 1)%nat /\
  received s = [DError 408%N; DJob j].
Proof.
  pose (j := (demo_job []) <| j_id := 1%N |> <| j_state := JCompleted |>).
  exists (waiting ++ [WWoke TimedOut; WAnswer; WEvent 9%N (Some j)]). do 2 eexists. split; [|split; [|split]].
  - eapply wrun_app; [exact waiting_run|]. eapply wrun_cons; [exact (ws_woke w_sub TimedOut eq_refl eq_refl (fun H => match H with eq_refl => I end))|].
    eapply wrun_cons; [eapply ws_answer; reflexivity|].
    eapply wrun_cons; [apply ws_event; [reflexivity|discriminate]|]. apply wr_nil.
  - reflexivity.
  - intros i. unfold awaited. cbn [delivered flat_map waiting app filter]. match goal with |- context [if ?b then _ else _] => destruct b end; cbn; lia.
  - reflexivity.
Qed.
Print Assumptions C70_one_document_refuted.
