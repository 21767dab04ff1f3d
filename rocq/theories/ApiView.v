(** C87: what the answers of the API show of a job's secrets when redaction is on.
    internal/coordinator/api/api.go:299-361 (createJob), 423-434 (getJob), 445-485 (getJobLog), 496-542 (listJobs),
    544-565 (createScheduledJob), 594-636 (listScheduledJobs), 646-653 (getScheduledJob), 728-738 (getTask), 750-789
    (getTaskLog); job.go:267-302 (NewJobSummary, NewScheduledJobSummary); middleware/job/redact.go, middleware/task/redact.go,
    middleware/log/redact.go; engine/coordinator.go:50-63.
    Simplified: an answer is the value given to c.JSON, not its text; one job (or scheduled job) at a time; the other
    endpoints answer with no data of jobs (WebAuth.v has them all). *)
From Coq Require Import Ascii.
From Verif Require Import Types Scheduled Redact WebAuth.
Open Scope string_scope.
Open Scope list_scope.

(* ------------------------------------------------------------------ *)
(** * Model *)
(** job.go:90-109 *)
Record jsummary := mkJSummary {
  su_id : id; su_parent : id; su_name : string; su_description : string; su_tags : list string; su_createdby : option Types.user;
  su_inputs : smap; su_state : jstate; su_created : time; su_started : option time; su_completed : option time; su_failed : option time;
  su_position : Z; su_taskcount : Z; su_result : string; su_error : string; su_progress : Z; su_schedule : option jobschedule }.
(** job.go:267-288 *)
Definition new_summary (j : job) : jsummary :=
  mkJSummary (j_id j) (j_parent j) (j_name j) (j_description j) (j_tags j) (j_createdby j) (j_inputs j) (j_state j) (j_created j)
    (j_started j) (j_completed j) (j_failed j) (j_position j) (j_taskcount j) (j_result j) (j_error j) (j_progress j) (j_schedule j).
(** job.go:111-121 and 290-302; its creation time is left out, as in Scheduled.v *)
Record ssummary := mkSSummary { ss_id : id; ss_name : string; ss_description : string; ss_state : sstate; ss_tags : list string;
  ss_inputs : smap; ss_cron : string; ss_createdby : option Types.user }.
Definition new_scheduled_summary (i : id) (st : sstate) (d : sdef) : ssummary :=
  mkSSummary i (sd_name d) (sd_description d) st (sd_tags d) (sd_inputs d) (sd_cron d) (sd_createdby d).

(** what the endpoint finds in the store *)
Record found := mkFound { f_job : job; f_task : task; f_log : list string; f_sched : id * sstate * sdef }.
Inductive view :=
| VJob (j : job) | VTask (t : task) | VLog (parts : list string) | VSummary (s : jsummary)
| VScheduled (i : id) (st : sstate) (d : sdef) | VScheduledSummary (s : ssummary) | VNone.
Section View.
Variable widths : list ascii -> list nat.
Variable matchers : list (string -> bool).
(** The chains of middleware/{job,task,log} on the event Read, built by engine/coordinator.go:50-63: with
    middleware.job.redact.enabled the redacter runs, the webhook middlewares ignore Read.
    [wait]: POST /jobs with a "wait" is answered by the job of the terminal event (api.go:324-336), as published. *)
Definition respond (redaction wait : bool) (e : endpoint) (f : found) : view :=
  match e with
  | E_getJob => VJob (if redaction then redact_job widths matchers (f_job f) else f_job f)
  | E_getTask => VTask (if redaction then read_task widths matchers (Some (f_job f)) (f_task f) else f_task f)
  | E_getJobLog | E_getTaskLog =>
      if redaction then match read_log widths (Some (f_job f)) (f_log f) with Some l => VLog l | None => VNone end else VLog (f_log f)
  | E_createJob => if wait then VJob (f_job f) else VSummary (new_summary (f_job f))
  | E_listJobs => VSummary (new_summary (f_job f))
  | E_getScheduledJob => match f_sched f with (i, st, d) => VScheduled i st d end
  | E_createScheduledJob | E_listScheduledJobs => match f_sched f with (i, st, d) => VScheduledSummary (new_scheduled_summary i st d) end
  | _ => VNone
  end.

(* ------------------------------------------------------------------ *)
(** * Specification *)
(** [shown v k x]: [x] is found in the answer under [k], in a field redaction covers (Redact.v), or anywhere among the
    variables of a summary or a scheduled job *)
Inductive shown : view -> string -> string -> Prop :=
| sh_vjob j k x : shown_job j k x -> shown (VJob j) k x
| sh_vtask t k x : shown_task t k x -> shown (VTask t) k x
| sh_vlog l x : In x l -> shown (VLog l) "" x
| sh_vsummary s k x : In (k, x) (su_inputs s) -> shown (VSummary s) k x
| sh_vscheduled i st d k x : In (k, x) (sd_inputs d) \/ In (k, x) (sd_secrets d) -> shown (VScheduled i st d) k x
| sh_vssummary s k x : In (k, x) (ss_inputs s) -> shown (VScheduledSummary s) k x.

(** ** Reading a job, a task or a log: no plain secret of the job is shown *)
Theorem C87_reads_are_redacted : forall wait e f k x n s,
  In e [E_getJob; E_getTask; E_getJobLog; E_getTaskLog] -> In (n, s) (j_secrets (f_job f)) -> plain_secret s ->
  shown (respond true wait e f) k x -> ~ occurs s x.
Proof.
  intros wait e f k x n s He Hs Hp H. destruct He as [<-|[<-|[<-|[<-|[]]]]]; cbn [respond] in H.
  - inversion H; subst. eapply C43_job_is_clean; eauto.
  - inversion H; subst. cbn [read_task] in *. eapply C43_task_is_clean; eauto.
  - destruct (read_log widths (Some (f_job f)) (f_log f)) as [l|] eqn:E; [|inversion H]. inversion H; subst. eapply C43_log_is_clean; eauto.
  - destruct (read_log widths (Some (f_job f)) (f_log f)) as [l|] eqn:E; [|inversion H]. inversion H; subst. eapply C43_log_is_clean; eauto.
Qed.

(** ** Summaries do not depend on secrets
    Whatever is done to the secrets of a job, its context, its tasks and their results, its webhooks, output and defaults: the
    answers made of summaries are the same; and those of a scheduled job likewise. *)
Theorem C87_summaries_ignore_secrets : forall redaction e f j' d', In e [E_createJob; E_listJobs; E_createScheduledJob; E_listScheduledJobs] ->
  (exists secrets ctx tasks exec hooks out defaults perms,
     j' = mkJob (j_id (f_job f)) (j_parent (f_job f)) (j_name (f_job f)) (j_description (f_job f)) (j_tags (f_job f)) (j_state (f_job f))
            (j_created (f_job f)) (j_createdby (f_job f)) (j_started (f_job f)) (j_completed (f_job f)) (j_failed (f_job f))
            tasks exec (j_position (f_job f)) (j_inputs (f_job f)) ctx (j_taskcount (f_job f)) out (j_result (f_job f)) (j_error (f_job f))
            defaults hooks perms (j_autodelete (f_job f)) (j_deleteat (f_job f)) secrets (j_progress (f_job f)) (j_schedule (f_job f))) ->
  (let d := snd (f_sched f) in exists secrets tasks hooks out defaults perms auto,
     d' = mkSDef (sd_name d) (sd_description d) (sd_cron d) (sd_inputs d) tasks (sd_createdby d) defaults auto hooks perms (sd_tags d) secrets out) ->
  respond redaction false e (mkFound j' (f_task f) (f_log f) (fst (f_sched f), d')) = respond redaction false e f.
Proof.
  intros redaction e [j t l [[i st] d]] j' d' He (se & cx & ta & ex & ho & ou & de & pe & ->) (se2 & ta2 & ho2 & ou2 & de2 & pe2 & au2 & ->).
  destruct He as [<-|[<-|[<-|[<-|[]]]]]; reflexivity.
Qed.

(** ** What a listing says of a job is what the job says *)
Theorem C87_summary_is_faithful : forall redaction f s, respond redaction false E_listJobs f = VSummary s ->
  let j := f_job f in
  (su_id s = j_id j /\ su_parent s = j_parent j /\ su_name s = j_name j /\ su_description s = j_description j /\ su_tags s = j_tags j) /\
  (su_state s = j_state j /\ su_result s = j_result j /\ su_error s = j_error j /\ su_progress s = j_progress j /\
   su_position s = j_position j /\ su_taskcount s = j_taskcount j) /\
  (su_created s = j_created j /\ su_started s = j_started j /\ su_completed s = j_completed j /\ su_failed s = j_failed j) /\
  su_createdby s = j_createdby j /\ su_inputs s = j_inputs j /\ su_schedule s = j_schedule j.
Proof. intros redaction f s H. cbn in H. injection H as <-. cbn. auto 20. Qed.
Theorem C87_scheduled_summary_is_faithful : forall redaction f s, respond redaction false E_listScheduledJobs f = VScheduledSummary s ->
  match f_sched f with (i, st, d) =>
    ss_id s = i /\ ss_state s = st /\ ss_name s = sd_name d /\ ss_description s = sd_description d /\ ss_tags s = sd_tags d /\
    ss_inputs s = sd_inputs d /\ ss_cron s = sd_cron d /\ ss_createdby s = sd_createdby d
  end.
Proof. intros redaction [j t l [[i st] d]] s H. cbn in *. injection H as <-. cbn. auto 20. Qed.

(** ** What is shown although redaction is on *)
(** the answer to a submission that waits has the job as it is, with its secrets; so has GET /scheduled-jobs/{id} *)
Theorem C87_waiting_answer_shows_secrets_refuted : forall f n s, In (n, s) (j_secrets (f_job f)) -> shown (respond true true E_createJob f) n s.
Proof. intros f n s H. apply sh_vjob. now apply sh_secrets. Qed.
Theorem C87_scheduled_job_shows_secrets_refuted : forall f wait n s, In (n, s) (sd_secrets (snd (f_sched f))) -> shown (respond true wait E_getScheduledJob f) n s.
Proof. intros [j t l [[i st] d]] wait n s H. apply sh_vscheduled. now right. Qed.
(** the listings and the answer to a submission show the inputs as they are: those with a secret name, and those that contain
    a secret of the job *)
Theorem C87_summaries_show_inputs_refuted : forall f redaction e n x, In e [E_createJob; E_listJobs] -> In (n, x) (j_inputs (f_job f)) ->
  shown (respond redaction false e f) n x.
Proof. intros f redaction e n x [<-|[<-|[]]] H; apply sh_vsummary; exact H. Qed.
End View.
Print Assumptions C87_reads_are_redacted.
Print Assumptions C87_summaries_ignore_secrets.
Print Assumptions C87_summary_is_faithful.
Print Assumptions C87_scheduled_summary_is_faithful.
Print Assumptions C87_waiting_answer_shows_secrets_refuted.
Print Assumptions C87_scheduled_job_shows_secrets_refuted.
Print Assumptions C87_summaries_show_inputs_refuted.

(** Non-vacuity: a job with a secret that is in its inputs and its log *)
Definition vj : job := mkJob 1%N 0%N "" "" [] JRunning 0%Z None None None None [] [] 1%Z [("url", "http://hunter2@db")] (mkCtx [] [] [] []) 1%Z "" "" ""
  None [] [] None None [("DB", "hunter2")] 0%Z None.
Definition vf : found := mkFound vj case_task ["pw=hunter2"] (2%N, SActive, mkSDef "n" "" "* * * * *" [] [] None None None [] [] [] [("DB", "hunter2")] "").
Example C87_nonvacuous :
  plain_secret "hunter2" /\
  shown (respond ws1 [] true false E_getJob vf) "url" "http://[REDACTED]@db" /\ shown (respond ws1 [] true false E_getJob vf) "DB" "[REDACTED]" /\
  respond ws1 [] true false E_getTaskLog vf = VLog ["pw=[REDACTED]"] /\
  shown (respond ws1 [] true true E_createJob vf) "DB" "hunter2" /\
  shown (respond ws1 [] true false E_getScheduledJob vf) "DB" "hunter2" /\
  shown (respond ws1 [] true false E_listJobs vf) "url" "http://hunter2@db".
Proof.
  split; [|split; [|split; [|split; [|split; [|split]]]]].
  - split; [discriminate|]. split; [split|]; intros (a & b & E).
    + destruct a as [|c0 [|c1 [|c2 [|c3 [|c4 [|c5 [|c6 [|c7 a]]]]]]]]; discriminate.
    + destruct a as [|c0 [|c1 [|c2 [|c3 [|c4 [|c5 [|c6 [|c7 a]]]]]]]]; discriminate.
    + destruct a as [|c0 [|c1 [|c2 [|c3 [|c4 [|c5 [|c6 [|c7 [|c8 a]]]]]]]]]; discriminate.
  - apply sh_vjob, sh_inputs. vm_compute. now left.
  - apply sh_vjob, sh_secrets. vm_compute. now left.
  - reflexivity.
  - apply C87_waiting_answer_shows_secrets_refuted. now left.
  - apply C87_scheduled_job_shows_secrets_refuted. now left.
  - apply C87_summaries_show_inputs_refuted; [cbn; tauto|now left].
Qed.
