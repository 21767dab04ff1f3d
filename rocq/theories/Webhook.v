(** C47: webhooks (internal/webhook/webhook.go, middleware/job/webhook.go, middleware/task/webhook.go). *)
From Coq Require Import String List ZArith Bool Lia Arith.
Import ListNotations.
Open Scope list_scope.

(* ------------------------------------------------------------------ *)
(** * Specification *)
(** How the server answers the i-th attempt (0, 1, ...): a transport error (including the 5s timeout) or a status. *)
Inductive response := RErr | RStatus (z : Z).
Definition succeeded (r : response) : Prop := exists z, r = RStatus z /\ (200 <= z < 300)%Z.
Definition worth_retrying (r : response) : Prop :=
  r = RErr \/ exists z, r = RStatus z /\ In z [429; 500; 502; 503; 504]%Z.
(** What the caller of a webhook does: requests and pauses (in seconds). *)
Inductive wact := Send | Sleep (s : nat).
Inductive wres := WOk | WErr | WPanic.
(** [n] attempts with the pauses 2, 4, ... between them *)
Fixpoint attempts_with_pauses (n : nat) : list wact :=
  match n with
  | 0 => []
  | 1 => [Send]
  | S m => attempts_with_pauses m ++ [Sleep (2 * m); Send]
  end.

(* ------------------------------------------------------------------ *)
(** * Model *)
Definition max_attempts : nat := 5.                                  (* webhook.go:16 *)
(** webhook.go:29-39 [isRetryable] *)
Definition is_retryable (z : Z) : bool := existsb (Z.eqb z) [429; 500; 502; 503; 504]%Z.
(** webhook.go:41-85 [Call].  [url_ok] says whether http.NewRequest accepts the URL: when it does not it returns a nil
    request, and webhook.go:52 dereferences it before webhook.go:53 looks at the error.
    Simplification: serialization of the body (webhook.go:42-45) is assumed to succeed (summaries are plain data);
    request headers are not modelled.  [fuel] bounds the loop of webhook.go:50. *)
Fixpoint call_loop (fuel attempts : nat) (url_ok : bool) (srv : nat -> response) : list wact * wres :=
  match fuel with
  | 0 => ([], WErr)
  | S f =>
      if attempts <=? max_attempts then
        if negb url_ok then ([], WPanic)
        else match srv (attempts - 1) with
             | RErr => let (t, r) := call_loop f (attempts + 1) url_ok srv in (Send :: Sleep (attempts * 2) :: t, r)
             | RStatus z =>
                 if (200 <=? z)%Z && (z <? 300)%Z then ([Send], WOk)
                 else if negb (is_retryable z) then ([Send], WErr)
                 else let (t, r) := call_loop f (attempts + 1) url_ok srv in (Send :: Sleep (attempts * 2) :: t, r)
             end
      else ([], WErr)
  end.
Definition call (url_ok : bool) (srv : nat -> response) : list wact * wres := call_loop (S max_attempts) 1 url_ok srv.

(* ------------------------------------------------------------------ *)
Lemma retry_dec r : {succeeded r} + {worth_retrying r} + {~ succeeded r /\ ~ worth_retrying r}.
Proof.
  destruct r as [|z]; [left; right; now left|].
  destruct ((200 <=? z)%Z && (z <? 300)%Z) eqn:E.
  - left; left. exists z. split; [reflexivity|]. apply andb_true_iff in E as [E1 E2]. apply Z.leb_le in E1. apply Z.ltb_lt in E2. lia.
  - destruct (is_retryable z) eqn:Er.
    + left; right. right. exists z. split; [reflexivity|]. unfold is_retryable in Er. apply existsb_exists in Er as (x & Hx & Ex). apply Z.eqb_eq in Ex. now subst x.
    + right. split.
      * intros (z' & [= <-] & H). apply andb_false_iff in E as [E|E]; [apply Z.leb_gt in E|apply Z.ltb_ge in E]; lia.
      * intros [H|(z' & [= <-] & H)]; [discriminate|]. assert (is_retryable z = true); [|congruence]. apply existsb_exists. exists z. split; [exact H|apply Z.eqb_refl].
Qed.
Lemma step_success f a srv : a <= max_attempts -> succeeded (srv (a - 1)) -> call_loop (S f) a true srv = ([Send], WOk).
Proof.
  intros Ha (z & E & H). cbn [call_loop]. apply Nat.leb_le in Ha. rewrite Ha. cbn [negb]. rewrite E.
  replace ((200 <=? z)%Z && (z <? 300)%Z) with true; [reflexivity|]. symmetry. apply andb_true_iff. split; [apply Z.leb_le|apply Z.ltb_lt]; lia.
Qed.
Lemma step_retry f a srv : a <= max_attempts -> worth_retrying (srv (a - 1)) ->
  call_loop (S f) a true srv = (Send :: Sleep (a * 2) :: fst (call_loop f (a + 1) true srv), snd (call_loop f (a + 1) true srv)).
Proof.
  intros Ha H. cbn [call_loop]. apply Nat.leb_le in Ha. rewrite Ha. cbn [negb]. destruct H as [E|(z & E & H)]; rewrite E.
  - now destruct (call_loop f (a + 1) true srv).
  - assert (Hr : is_retryable z = true) by (apply existsb_exists; exists z; split; [exact H|apply Z.eqb_refl]). rewrite Hr.
    assert (Hs : ((200 <=? z)%Z && (z <? 300)%Z) = false).
    { apply andb_false_iff. right. apply Z.ltb_ge. cbn in H. lia. }
    rewrite Hs. cbn [negb]. now destruct (call_loop f (a + 1) true srv).
Qed.
Lemma step_refused f a srv : a <= max_attempts -> ~ succeeded (srv (a - 1)) -> ~ worth_retrying (srv (a - 1)) -> call_loop (S f) a true srv = ([Send], WErr).
Proof.
  intros Ha Hs Hr. cbn [call_loop]. apply Nat.leb_le in Ha. rewrite Ha. cbn [negb]. destruct (srv (a - 1)) as [|z] eqn:E; [exfalso; apply Hr; now left|].
  destruct ((200 <=? z)%Z && (z <? 300)%Z) eqn:E1.
  - exfalso. apply Hs. exists z. split; [reflexivity|]. apply andb_true_iff in E1 as [E1 E2]. apply Z.leb_le in E1. apply Z.ltb_lt in E2. lia.
  - destruct (is_retryable z) eqn:E2; [|reflexivity]. exfalso. apply Hr. right. exists z. split; [reflexivity|].
    unfold is_retryable in E2. apply existsb_exists in E2 as (x & Hx & Ex). apply Z.eqb_eq in Ex. now subst x.
Qed.

(** Against any server, a webhook with a well-formed URL is sent [n] times, 1 <= n <= 5, with pauses of
    2, 4, ... seconds between the attempts; every attempt but the last failed with something worth retrying;
    the call succeeds iff the last attempt got a 2xx, and otherwise gave up because the last answer is not
    worth retrying or because it was the fifth (after a last, useless, 10 second pause). *)
Theorem C47_attempts : forall srv, exists n, 1 <= n <= 5 /\
  (forall i, i < n - 1 -> worth_retrying (srv i)) /\
  ((snd (call true srv) = WOk /\ succeeded (srv (n - 1)) /\ fst (call true srv) = attempts_with_pauses n) \/
   (snd (call true srv) = WErr /\ ~ succeeded (srv (n - 1)) /\ ~ worth_retrying (srv (n - 1)) /\ fst (call true srv) = attempts_with_pauses n) \/
   (snd (call true srv) = WErr /\ n = 5 /\ worth_retrying (srv 4) /\ fst (call true srv) = attempts_with_pauses 5 ++ [Sleep 10])).
Proof.
  intros srv. unfold call, max_attempts.
  destruct (retry_dec (srv 0)) as [[S0|R0]|[S0 R0]].
  { exists 1. rewrite step_success; [|cbv;lia|exact S0]. split; [lia|]. split; [lia|]. left. auto. }
  2: { exists 1. rewrite step_refused; [|cbv;lia|exact S0|exact R0]. split; [lia|]. split; [lia|]. right; left. auto. }
  rewrite step_retry; [|cbv;lia|exact R0]. cbn [fst snd Nat.add Nat.mul].
  destruct (retry_dec (srv 1)) as [[S1|R1]|[S1 R1]].
  { exists 2. rewrite step_success; [|cbv;lia|exact S1]. split; [lia|]. split; [intros [|i] Hi; [exact R0|lia]|]. left. auto. }
  2: { exists 2. rewrite step_refused; [|cbv;lia|exact S1|exact R1]. split; [lia|]. split; [intros [|i] Hi; [exact R0|lia]|]. right; left. auto. }
  rewrite step_retry; [|cbv;lia|exact R1]. cbn [fst snd Nat.add Nat.mul].
  destruct (retry_dec (srv 2)) as [[S2|R2]|[S2 R2]].
  { exists 3. rewrite step_success; [|cbv;lia|exact S2]. split; [lia|]. split; [intros [|[|i]] Hi; [exact R0|exact R1|lia]|]. left. auto. }
  2: { exists 3. rewrite step_refused; [|cbv;lia|exact S2|exact R2]. split; [lia|]. split; [intros [|[|i]] Hi; [exact R0|exact R1|lia]|]. right; left. auto. }
  rewrite step_retry; [|cbv;lia|exact R2]. cbn [fst snd Nat.add Nat.mul].
  destruct (retry_dec (srv 3)) as [[S3|R3]|[S3 R3]].
  { exists 4. rewrite step_success; [|cbv;lia|exact S3]. split; [lia|]. split; [intros [|[|[|i]]] Hi; [exact R0|exact R1|exact R2|lia]|]. left. auto. }
  2: { exists 4. rewrite step_refused; [|cbv;lia|exact S3|exact R3]. split; [lia|]. split; [intros [|[|[|i]]] Hi; [exact R0|exact R1|exact R2|lia]|]. right; left. auto. }
  rewrite step_retry; [|cbv;lia|exact R3]. cbn [fst snd Nat.add Nat.mul].
  destruct (retry_dec (srv 4)) as [[S4|R4]|[S4 R4]].
  { exists 5. rewrite step_success; [|cbv;lia|exact S4]. split; [lia|]. split; [intros [|[|[|[|i]]]] Hi; [exact R0|exact R1|exact R2|exact R3|lia]|]. left. auto. }
  2: { exists 5. rewrite step_refused; [|cbv;lia|exact S4|exact R4]. split; [lia|]. split; [intros [|[|[|[|i]]]] Hi; [exact R0|exact R1|exact R2|exact R3|lia]|]. right; left. auto. }
  rewrite step_retry; [|cbv;lia|exact R4]. exists 5. split; [lia|]. split; [intros [|[|[|[|i]]]] Hi; [exact R0|exact R1|exact R2|exact R3|lia]|].
  right; right. auto.
Qed.
Print Assumptions C47_attempts.

(** it succeeds iff one of the first five attempts would, all earlier ones being worth retrying *)
Theorem C47_success_iff : forall srv, snd (call true srv) = WOk <->
  exists n, n < 5 /\ succeeded (srv n) /\ forall i, i < n -> worth_retrying (srv i).
Proof.
  assert (Excl : forall r, succeeded r -> worth_retrying r -> False).
  { intros r (z & -> & H) [E|(z' & [= <-] & H')]; [discriminate|]. cbn in H'. lia. }
  intros srv. destruct (C47_attempts srv) as (n & Hn & Hr & Hc). split.
  - intros E. destruct Hc as [(_ & S & _)|[(E' & _)|(E' & _)]]; try congruence. exists (n - 1). split; [lia|]. auto.
  - intros (m & Hm & S & Hm'). destruct Hc as [(E & _)|[(_ & NS & NR & _)|(_ & -> & R4 & _)]]; [exact E| |]; exfalso.
    + destruct (Nat.lt_trichotomy m (n - 1)) as [L|[->|L]]; [eapply Excl; [exact S|auto]|now apply NS|apply NR; auto].
    + destruct (Nat.lt_trichotomy m 4) as [L|[->|L]]; [eapply Excl; [exact S|]; apply Hr; lia|eapply Excl; eauto|lia].
Qed.
Print Assumptions C47_success_iff.

(** A URL that does not parse is only checked to be non-empty when the job is submitted (input/job.go:64), and makes
    the goroutine that calls the webhook panic: nothing recovers it, so the coordinator process exits. *)
Theorem C47_malformed_url_panics_refuted : forall srv, call false srv = ([], WPanic).
Proof. reflexivity. Qed.
Print Assumptions C47_malformed_url_panics_refuted.

(* ------------------------------------------------------------------ *)
(** * Which webhooks fire *)
Record hook := mkHook { h_event : string; h_if : string }.
Inductive etype := StateChange | Progress | OtherEvent.
(** result of evaluating the hook's condition over the summaries *)
Inductive cond := CErr | CNotBool | CBool (b : bool).
Section Fire.
Variable eval_if : string -> cond.
(** middleware/job/webhook.go:23-51: the webhooks of the list that are called, in order *)
Definition job_fires (et : etype) (wh : hook) : bool :=
  let ev := h_event wh in
  if negb (String.eqb ev "job.StateChange") && negb (String.eqb ev "") && negb (String.eqb ev "job.Progress") then false
  else if match et with StateChange => negb (String.eqb ev "job.StateChange") && negb (String.eqb ev "") | _ => false end then false
  else if match et with Progress => negb (String.eqb ev "job.Progress") | _ => false end then false
  else if negb (String.eqb (h_if wh) "") then match eval_if (h_if wh) with CBool b => b | _ => false end
  else true.
(** middleware/job/webhook.go:12-22, 51-54; [next_ok]: the wrapped handler succeeded *)
Definition job_webhooks (next_ok : bool) (et : etype) (whs : list hook) : list hook :=
  if negb next_ok then [] else
  match et with OtherEvent => [] | _ => filter (job_fires et) whs end.
(** middleware/task/webhook.go:33-62 *)
Definition task_fires (et : etype) (wh : hook) : bool :=
  let ev := h_event wh in
  if negb (String.eqb ev "task.StateChange") && negb (String.eqb ev "task.Progress") then false
  else if (String.eqb ev "task.StateChange" && match et with StateChange => false | _ => true end)
       || (String.eqb ev "task.Progress" && match et with Progress => false | _ => true end) then false
  else if negb (String.eqb (h_if wh) "") then match eval_if (h_if wh) with CBool b => b | _ => false end
  else true.
(** middleware/task/webhook.go:16-32; [job_ok]: the job record could be read *)
Definition task_webhooks (next_ok job_ok : bool) (et : etype) (whs : list hook) : list hook :=
  if negb next_ok then [] else
  match et with OtherEvent => [] | _ => if negb job_ok then [] else filter (task_fires et) whs end.

(** specification: the kind of change a hook asks for *)
Definition wants_job (ev : string) (et : etype) : Prop :=
  (et = StateChange /\ (ev = "job.StateChange" \/ ev = ""))%string \/ (et = Progress /\ ev = "job.Progress")%string.
Definition wants_task (ev : string) (et : etype) : Prop :=
  (et = StateChange /\ ev = "task.StateChange")%string \/ (et = Progress /\ ev = "task.Progress")%string.
Definition condition_holds (wh : hook) : Prop := h_if wh = ""%string \/ eval_if (h_if wh) = CBool true.

Ltac eqs := repeat match goal with |- context [String.eqb ?a ?b] => destruct (String.eqb_spec a b) end; cbn.
Lemma cond_iff wh : (if negb (String.eqb (h_if wh) "") then match eval_if (h_if wh) with CBool b => b | _ => false end else true) = true <-> condition_holds wh.
Proof.
  unfold condition_holds. destruct (String.eqb_spec (h_if wh) "") as [E|E]; cbn; [split; auto|].
  destruct (eval_if (h_if wh)) as [| |[]]; split; try discriminate; intros; try (destruct H; [contradiction|discriminate]); auto.
Qed.
Lemma job_fires_iff et wh : et <> OtherEvent -> job_fires et wh = true <-> wants_job (h_event wh) et /\ condition_holds wh.
Proof.
  intros Het. rewrite <- cond_iff. unfold job_fires, wants_job.
  destruct et; [| |congruence]; eqs; try tauto; split; try discriminate; try congruence;
    intros H; try (split; [|exact H]); try (destruct H as [[[? ?]|[? ?]] ?]); intuition congruence.
Qed.
Lemma task_fires_iff et wh : et <> OtherEvent -> task_fires et wh = true <-> wants_task (h_event wh) et /\ condition_holds wh.
Proof.
  intros Het. rewrite <- cond_iff. unfold task_fires, wants_task.
  destruct et; [| |congruence]; eqs; try tauto; split; try discriminate; try congruence;
    intros H; try (split; [|exact H]); try (destruct H as [[[? ?]|[? ?]] ?]); intuition congruence.
Qed.
(** The hooks called are exactly the ones that want this kind of change and whose condition holds, each once, in order. *)
Theorem C47_job_webhooks_fire : forall et whs, et <> OtherEvent ->
  exists keep, job_webhooks true et whs = filter keep whs /\ forall wh, keep wh = true <-> wants_job (h_event wh) et /\ condition_holds wh.
Proof. intros et whs Het. exists (job_fires et). split; [destruct et; [reflexivity..|congruence]|]. intros. now apply job_fires_iff. Qed.
Theorem C47_task_webhooks_fire : forall et whs, et <> OtherEvent ->
  exists keep, task_webhooks true true et whs = filter keep whs /\ forall wh, keep wh = true <-> wants_task (h_event wh) et /\ condition_holds wh.
Proof. intros et whs Het. exists (task_fires et). split; [destruct et; [reflexivity..|congruence]|]. intros. now apply task_fires_iff. Qed.
(** nothing is called when the change itself failed, or for reads and other events *)
Theorem C47_no_webhook_otherwise : forall et whs jok,
  job_webhooks false et whs = [] /\ task_webhooks false jok et whs = [] /\
  job_webhooks true OtherEvent whs = [] /\ task_webhooks true jok OtherEvent whs = [].
Proof. intros. repeat split; reflexivity. Qed.
End Fire.
Print Assumptions C47_job_webhooks_fire.
Print Assumptions C47_task_webhooks_fire.
Print Assumptions C47_no_webhook_otherwise.

Example C47_nonvacuous : (* a server that fails twice, then accepts *)
  call true (fun i => match i with 0 => RErr | 1 => RStatus 503 | _ => RStatus 204 end) = ([Send; Sleep 2; Send; Sleep 4; Send], WOk) /\
  job_webhooks (fun _ => CBool true) true StateChange [mkHook "" ""; mkHook "job.Progress" ""; mkHook "job.StateChange" "x"] = [mkHook "" ""; mkHook "job.StateChange" "x"].
Proof. vm_compute. auto. Qed.
