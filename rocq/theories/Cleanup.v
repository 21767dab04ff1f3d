(** C34: what the periodic cleanup deletes, and how often it runs.
    datastore/postgres/postgres.go:163-203 (cleanupProcess, cleanup), 896-961 (expungeExpiredTaskLogPart,
    expungeExpiredJobs, deleteJobs); db/postgres/schema.go:76-184. *)
From Coq Require Import Permutation.
From Verif Require Import Types World Listing.
Open Scope string_scope.
Open Scope list_scope.
Open Scope Z_scope.

(** * The tables *)
(** [cr_delete]: the column delete_at *)
Record crow := mkCrow { cr_id : id; cr_state : jstate; cr_created : time; cr_delete : option time }.
(** tasks (id, job), log parts (id, task, creation), permissions of jobs (id, job).  Rows carry their primary key, so
    equal rows are the same row. *)
Record ctrow := mkCtrow { ct_id : id; ct_job : id }.
Record clrow := mkClrow { cl_id : id; cl_task : id; cl_created : time }.
Record cprow := mkCprow { cp_id : id; cp_job : id }.
Record store := mkStore { s_jobs : list crow; s_tasks : list ctrow; s_logs : list clrow; s_perms : list cprow }.
(** foreign keys and primary keys of the schema *)
Record consistent (s : store) : Prop := {
  c_task : forall t, In t (s_tasks s) -> In (ct_job t) (map cr_id (s_jobs s));
  c_log : forall l, In l (s_logs s) -> In (cl_task l) (map ct_id (s_tasks s));
  c_perm : forall p, In p (s_perms s) -> In (cp_job p) (map cr_id (s_jobs s));
  c_jobs : NoDup (map cr_id (s_jobs s)); c_tasks : NoDup (map ct_id (s_tasks s));
  c_logs : NoDup (map cl_id (s_logs s)); c_perms : NoDup (map cp_id (s_perms s)) }.

(** * The code *)
(** One pass's surroundings: the clocks of the coordinator and of the database, the time zone of the database session
    (seconds east of UTC) and the two retention periods *)
Record setting := mkSetting { g_now : time; g_dbnow : time; g_tz : Z; g_logs : Z; g_jobs : Z }.

Definition ended (s : jstate) : bool := match s with JCompleted | JFailed | JCancelled => true | _ => false end.
(** postgres.go:922: delete_at has no time zone and holds UTC; comparing it with current_timestamp reads it in the
    time zone of the session *)
Definition job_expired (g : setting) (r : crow) : bool :=
  (match cr_delete r with Some d => d - g_tz g <? g_dbnow g | None => false end) ||
  ((cr_created r <? g_now g - g_jobs g) && ended (cr_state r)).
(** postgres.go:897-903 *)
Definition log_expired (g : setting) (l : clrow) : bool := cl_created l <? g_now g - g_logs g.
(** select ... limit 1000, without order by: any 1000 of the rows *)
Definition LIMIT : nat := 1000.
Definition limited {A} (p : A -> bool) (l sel : list A) : Prop := exists s, Permutation s (filter p l) /\ sel = firstn LIMIT s.

Definition has (i : id) (l : list id) : bool := existsb (N.eqb i) l.
(** postgres.go:896-912 *)
Definition delete_logs (ids : list id) (s : store) : store :=
  mkStore (s_jobs s) (s_tasks s) (filter (fun l => negb (has (cl_id l) ids)) (s_logs s)) (s_perms s).
(** postgres.go:937-961, one transaction *)
Definition delete_jobs (ids : list id) (s : store) : store :=
  let doomed := map ct_id (filter (fun t => has (ct_job t) ids) (s_tasks s)) in
  mkStore (filter (fun r => negb (has (cr_id r) ids)) (s_jobs s))
          (filter (fun t => negb (has (ct_job t) ids)) (s_tasks s))
          (filter (fun l => negb (has (cl_task l) doomed)) (s_logs s))
          (filter (fun p => negb (has (cp_job p) ids)) (s_perms s)).

(** postgres.go:38-42: durations are in nanoseconds *)
Notation minute := (60 * 10 ^ 9).
Notation hour := (3600 * 10 ^ 9).
Definition MIN_INTERVAL : Z := minute.
Definition MAX_INTERVAL : Z := hour.
(** postgres.go:188-201: time.Duration is integral (nanoseconds); [/ 2] truncates *)
Definition next_interval (n : nat) (d : Z) : Z :=
  if (0 <? n)%nat then (if Z.quot d 2 <? MIN_INTERVAL then MIN_INTERVAL else Z.quot d 2)
  else (if MAX_INTERVAL <? d * 2 then MAX_INTERVAL else d * 2).

(** postgres.go:173-203: the log parts first; an error stops the pass and leaves the interval; the deletion of jobs is
    one transaction *)
Inductive pass (g : setting) (s : store) (d : Z) : store -> Z -> nat -> nat -> Prop :=
| pass_logs_fail : pass g s d s d 0 0
| pass_jobs_fail ls : limited (log_expired g) (s_logs s) ls ->
    pass g s d (delete_logs (map cl_id ls) s) d (length ls) 0
| pass_ok ls js : limited (log_expired g) (s_logs s) ls -> limited (job_expired g) (s_jobs s) js ->
    pass g s d (delete_jobs (map cr_id js) (delete_logs (map cl_id ls) s)) (next_interval (length ls + length js) d) (length ls) (length js).

(** * Specification *)
(** a job whose time has come: past its deletion time, or ended and older than the retention *)
Definition due (g : setting) (r : crow) : Prop :=
  (exists d, cr_delete r = Some d /\ d < g_dbnow g) \/
  ((cr_state r = JCompleted \/ cr_state r = JFailed \/ cr_state r = JCancelled) /\ cr_created r < g_now g - g_jobs g).
Definition old_log (g : setting) (l : clrow) : Prop := cl_created l < g_now g - g_logs g.
Definition task_of (s : store) (l : clrow) (t : ctrow) : Prop := In t (s_tasks s) /\ ct_id t = cl_task l.

Lemma job_expired_due g r : g_tz g = 0 -> job_expired g r = true <-> due g r.
Proof.
  intros Z0. unfold job_expired, due. rewrite Z0, orb_true_iff, andb_true_iff, Z.ltb_lt.
  assert (A : (match cr_delete r with Some d => d - 0 <? g_dbnow g | None => false end) = true <-> exists d, cr_delete r = Some d /\ d < g_dbnow g).
  { destruct (cr_delete r) as [d|].
    - rewrite Z.ltb_lt. split; [intros H; exists d; split; [reflexivity|lia]|intros (x & E & H); injection E as <-; lia].
    - split; [discriminate|intros (x & E & _); discriminate]. }
  assert (B : ended (cr_state r) = true <-> cr_state r = JCompleted \/ cr_state r = JFailed \/ cr_state r = JCancelled).
  { destruct (cr_state r); cbn; intuition congruence. }
  rewrite A, B. tauto.
Qed.
Lemma limited_in {A} (p : A -> bool) l sel : limited p l sel -> forall x, In x sel -> In x l /\ p x = true.
Proof.
  intros (s & P & ->) x H. assert (In x s) by (rewrite <- (firstn_skipn LIMIT s); apply in_app_iff; now left).
  apply filter_In. eapply Permutation_in; eassumption.
Qed.
Lemma limited_len {A} (p : A -> bool) l sel : limited p l sel -> length sel = Nat.min LIMIT (length (filter p l)).
Proof. intros (s & P & ->). rewrite firstn_length, (Permutation_length P). reflexivity. Qed.
Lemma has_spec i l : has i l = true <-> In i l.
Proof. unfold has. rewrite existsb_exists. split; [intros (x & H & E); apply N.eqb_eq in E; now subst|intros H; exists i; split; [assumption|apply N.eqb_refl]]. Qed.
Lemma not_has i l : negb (has i l) = true <-> ~ In i l.
Proof. rewrite negb_true_iff, <- has_spec. destruct (has i l); intuition congruence. Qed.
Lemma nodup_key {A} (k : A -> id) l x y : NoDup (map k l) -> In x l -> In y l -> k x = k y -> x = y.
Proof.
  induction l as [|z l IH]; cbn; intros N Hx Hy E; [contradiction|]. inversion N as [|? ? N1 N2]; subst.
  destruct Hx as [<-|Hx], Hy as [<-|Hy]; auto.
  - destruct N1. rewrite E. now apply in_map.
  - destruct N1. rewrite <- E. now apply in_map.
Qed.
Lemma nodup_filter {A} (k : A -> id) (p : A -> bool) l : NoDup (map k l) -> NoDup (map k (filter p l)).
Proof.
  induction l as [|z l IH]; cbn; intros N; [constructor|]. inversion N as [|? ? N1 N2]; subst. destruct (p z); cbn; [|auto].
  constructor; [|auto]. intros H. apply N1. apply in_map_iff in H as (y & E & H). apply filter_In in H as (H & _). apply in_map_iff. eauto.
Qed.

(** the ids selected by [limited] hit exactly the selected rows *)
Lemma sel_ids {A} (k : A -> id) p l sel x : NoDup (map k l) -> limited p l sel -> In x l -> (In (k x) (map k sel) <-> In x sel).
Proof.
  intros N L Hx. split; [|apply in_map]. intros H. apply in_map_iff in H as (y & E & Hy).
  destruct (limited_in p l sel L y Hy) as (Hy2 & _). rewrite <- (nodup_key k l y x); assumption.
Qed.

Lemma delete_logs_consistent ids s : consistent s -> consistent (delete_logs ids s).
Proof.
  intros [A B C D E F G]. split; cbn; try assumption.
  - intros l H. apply filter_In in H as (H & _). auto.
  - now apply nodup_filter.
Qed.
Lemma delete_jobs_consistent ids s : consistent s -> consistent (delete_jobs ids s).
Proof.
  intros [A B C D E F G]. split; cbn; try (now apply nodup_filter).
  - intros t H. apply filter_In in H as (H & K). specialize (A t H). apply in_map_iff in A as (r & Er & Hr). apply in_map_iff. exists r.
    split; [assumption|]. apply filter_In. split; [assumption|]. now rewrite Er.
  - intros l H. apply filter_In in H as (H & K). specialize (B l H). apply in_map_iff in B as (t & Et & Ht). apply in_map_iff. exists t.
    split; [assumption|]. apply filter_In. split; [assumption|]. apply not_has. intros X. apply not_has in K. apply K. rewrite <- Et.
    apply in_map, filter_In. split; [assumption|]. now apply has_spec.
  - intros p H. apply filter_In in H as (H & K). specialize (C p H). apply in_map_iff in C as (r & Er & Hr). apply in_map_iff. exists r.
    split; [assumption|]. apply filter_In. split; [assumption|]. now rewrite Er.
Qed.
(** the constraints of the schema keep holding *)
Theorem C34_consistent : forall g s d s' d' n1 n2, consistent s -> pass g s d s' d' n1 n2 -> consistent s'.
Proof. intros g s d s' d' n1 n2 C H. destruct H; auto using delete_logs_consistent, delete_jobs_consistent. Qed.

(** A pass, whatever part of it fails: nothing is added or changed; a job disappears only when it is due, at most 1000 of
    them, and with all its tasks, log parts and permissions; what belongs to the other jobs stays, but for log parts past
    the log retention, at most 1000 of those. *)
Theorem C34_only_expired : forall g s d s' d' n1 n2, g_tz g = 0 -> consistent s -> pass g s d s' d' n1 n2 ->
  (* only deletions *)
  incl (s_jobs s') (s_jobs s) /\ incl (s_tasks s') (s_tasks s) /\ incl (s_logs s') (s_logs s) /\ incl (s_perms s') (s_perms s) /\
  exists js ls, NoDup (map cr_id js) /\ (length js <= 1000)%nat /\ (length ls <= 1000)%nat /\ length js = n2 /\ length ls = n1 /\
    (* the deleted jobs *)
    (forall r, In r (s_jobs s) -> (In r (s_jobs s') <-> ~ In r js)) /\
    (forall r, In r js -> In r (s_jobs s) /\ due g r) /\
    (forall l, In l ls -> In l (s_logs s) /\ old_log g l) /\
    (* what belongs to a deleted job is gone, what belongs to another stays *)
    (forall t, In t (s_tasks s) -> (In t (s_tasks s') <-> ~ In (ct_job t) (map cr_id js))) /\
    (forall p, In p (s_perms s) -> (In p (s_perms s') <-> ~ In (cp_job p) (map cr_id js))) /\
    (forall l t, In l (s_logs s) -> task_of s l t -> (In l (s_logs s') <-> ~ In (ct_job t) (map cr_id js) /\ ~ In l ls)).
Proof.
  intros g s d s' d' n1 n2 TZ C H.
  assert (L0 : limited (fun _ : clrow => false) [] (@nil clrow)) by (exists []; split; reflexivity).
  assert (G : exists (js : list crow) (ls : list clrow), (js = [] \/ limited (job_expired g) (s_jobs s) js) /\ (ls = [] \/ limited (log_expired g) (s_logs s) ls) /\
     length js = n2 /\ length ls = n1 /\ s_jobs s' = filter (fun r => negb (has (cr_id r) (map cr_id js))) (s_jobs s) /\
     s_tasks s' = filter (fun t => negb (has (ct_job t) (map cr_id js))) (s_tasks s) /\
     s_perms s' = filter (fun p => negb (has (cp_job p) (map cr_id js))) (s_perms s) /\
     s_logs s' = filter (fun l => negb (has (cl_task l) (map ct_id (filter (fun t => has (ct_job t) (map cr_id js)) (s_tasks s))))) (filter (fun l => negb (has (cl_id l) (map cl_id ls))) (s_logs s))).
  { assert (K : forall {A} (l : list A), filter (fun _ => true) l = l) by (intros A l; apply filter_all; reflexivity).
    assert (K2 : filter (fun _ : ctrow => false) (s_tasks s) = []) by (apply filter_nil_iff; reflexivity).
    destruct H as [|ls Hl|ls js Hl Hj].
    - exists [], []. cbn [map has existsb negb length]. rewrite K2. cbn [map has existsb negb]. rewrite !K. auto 10.
    - exists [], ls. cbn [map has existsb negb length delete_logs s_jobs s_tasks s_logs s_perms]. rewrite K2. cbn [map has existsb negb]. rewrite !K. auto 10.
    - exists js, ls. cbn. auto 10. }
  destruct G as (js & ls & Hj & Hl & N2 & N1 & EJ & ET & EP & EL).
  assert (IJ : forall r, In r js -> In r (s_jobs s) /\ job_expired g r = true) by (destruct Hj as [->|Hj]; [intros r []|now apply limited_in]).
  assert (IL : forall l, In l ls -> In l (s_logs s) /\ log_expired g l = true) by (destruct Hl as [->|Hl]; [intros r []|now apply limited_in]).
  assert (KJ : forall r, In r (s_jobs s) -> (In (cr_id r) (map cr_id js) <-> In r js)).
  { intros r Hr. destruct Hj as [->|Hj]; [reflexivity|]. eapply sel_ids; eauto. apply C. }
  assert (KL : forall l, In l (s_logs s) -> (In (cl_id l) (map cl_id ls) <-> In l ls)).
  { intros r Hr. destruct Hl as [->|Hl]; [reflexivity|]. eapply sel_ids; eauto. apply C. }
  split; [rewrite EJ; intros x Hx; now apply filter_In in Hx|]. split; [rewrite ET; intros x Hx; now apply filter_In in Hx|].
  split; [rewrite EL; intros x Hx; apply filter_In in Hx as (Hx & _); now apply filter_In in Hx|]. split; [rewrite EP; intros x Hx; now apply filter_In in Hx|].
  exists js, ls. split.
  { destruct Hj as [->|(q & P & ->)]; [constructor|]. assert (N : NoDup (map cr_id q)).
    { eapply Permutation_NoDup; [apply Permutation_map; symmetry; exact P|]. apply nodup_filter, C. }
    clear - N. rewrite <- firstn_map. rewrite <- (firstn_skipn LIMIT (map cr_id q)) in N. clear - N. induction (firstn LIMIT (map cr_id q)) as [|a l IH]; [constructor|]. cbn in N. inversion N as [|? ? A B]; subst. constructor; [intros K; apply A, in_app_iff; now left|auto]. }
  split. { destruct Hj as [->|Hj]; [cbn; lia|]. rewrite (limited_len _ _ _ Hj). unfold LIMIT. lia. }
  split. { destruct Hl as [->|Hl]; [cbn; lia|]. rewrite (limited_len _ _ _ Hl). unfold LIMIT. lia. }
  split; [assumption|]. split; [assumption|]. split.
  { intros r Hr. rewrite EJ, filter_In, not_has, (KJ r Hr). tauto. }
  split. { intros r Hr. destruct (IJ r Hr) as (A & B). split; [assumption|]. now apply job_expired_due. }
  split. { intros l Hr. destruct (IL l Hr) as (A & B). split; [assumption|]. unfold log_expired in B. now apply Z.ltb_lt in B. }
  split. { intros t Ht. rewrite ET, filter_In, not_has. tauto. }
  split. { intros p Hp. rewrite EP, filter_In, not_has. tauto. }
  intros l t Hll (Ht & Et). rewrite EL, !filter_In, !not_has, (KL l Hll).
  assert (X : In (cl_task l) (map ct_id (filter (fun t => has (ct_job t) (map cr_id js)) (s_tasks s))) <-> In (ct_job t) (map cr_id js)).
  { rewrite <- Et, in_map_iff. split.
    - intros (t' & E & H'). apply filter_In in H' as (H1 & H2). apply has_spec in H2. rewrite <- (nodup_key ct_id (s_tasks s) t' t); [assumption|apply C|assumption..].
    - intros H'. exists t. split; [reflexivity|]. apply filter_In. split; [assumption|]. now apply has_spec. }
  rewrite X. tauto.
Qed.
(** In particular a job that has not ended and has no deletion time is never touched, nor are its tasks and permissions *)
Theorem C34_live_jobs_stay : forall g s d s' d' n1 n2 r, g_tz g = 0 -> consistent s -> pass g s d s' d' n1 n2 ->
  In r (s_jobs s) -> cr_delete r = None -> cr_state r <> JCompleted -> cr_state r <> JFailed -> cr_state r <> JCancelled ->
  In r (s_jobs s') /\ (forall t, In t (s_tasks s) -> ct_job t = cr_id r -> In t (s_tasks s')) /\
  (forall p, In p (s_perms s) -> cp_job p = cr_id r -> In p (s_perms s')).
Proof.
  intros g s d s' d' n1 n2 r TZ C H Hr Hd S1 S2 S3.
  destruct (C34_only_expired g s d s' d' n1 n2 TZ C H) as (_ & _ & _ & _ & js & ls & _ & _ & _ & _ & _ & HJ & HD & _ & HT & HP & _).
  assert (N : ~ In r js). { intros K. destruct (HD r K) as (_ & [(x & E & _)|([E|[E|E]] & _)]); congruence. }
  assert (M : ~ In (cr_id r) (map cr_id js)).
  { intros K. apply in_map_iff in K as (y & E & Hy). apply N. destruct (HD y Hy) as (Hy2 & _). rewrite <- (nodup_key cr_id (s_jobs s) y r); [assumption|apply C|assumption..]. }
  split; [now apply HJ|]. split; [intros t Ht E; apply HT; [assumption|now rewrite E]|intros p Hp E; apply HP; [assumption|now rewrite E]].
Qed.
(** A pass that succeeds deletes as many as it may: everything due if at most 1000 are *)
Theorem C34_progress : forall g s ls js, g_tz g = 0 ->
  limited (log_expired g) (s_logs s) ls -> limited (job_expired g) (s_jobs s) js ->
  length js = Nat.min 1000 (length (filter (job_expired g) (s_jobs s))) /\
  ((length (filter (job_expired g) (s_jobs s)) <= 1000)%nat ->
   forall r, In r (s_jobs (delete_jobs (map cr_id js) (delete_logs (map cl_id ls) s))) -> ~ due g r).
Proof.
  intros g s ls js TZ Hl Hj. split; [apply (limited_len _ _ _ Hj)|]. intros Hn r Hr. cbn in Hr. apply filter_In in Hr as (Hr & K).
  apply not_has in K. intros D. apply (job_expired_due g r TZ) in D. apply K. apply in_map. destruct Hj as (q & P & ->).
  rewrite firstn_all2. 2: { rewrite (Permutation_length P). exact Hn. }
  eapply Permutation_in; [symmetry; exact P|]. apply filter_In. auto.
Qed.

(** * Histories: anything may happen to the store between passes *)
Inductive cleanup_history : Z -> Prop :=
| hist_start : cleanup_history minute                               (* postgres.go:38,145 *)
| hist_pass d g s s' d' n1 n2 : cleanup_history d -> pass g s d s' d' n1 n2 -> cleanup_history d'.
(** the interval always stays between one minute and one hour; what is slept is that and 1 to 60 seconds more *)
Theorem C34_interval : forall d, cleanup_history d -> minute <= d <= hour.
Proof.
  induction 1 as [|d g s s' d' n1 n2 _ IH H]; [lia|]. destruct H; try assumption. unfold next_interval, MIN_INTERVAL, MAX_INTERVAL.
  destruct (0 <? _)%nat.
  - rewrite Z.quot_div_nonneg by lia. pose proof (Z.div_le_upper_bound d 2 hour ltac:(lia) ltac:(lia)). destruct (Z.ltb_spec (d / 2) minute); lia.
  - destruct (Z.ltb_spec hour (d * 2)); lia.
Qed.
(** and it reacts: a pass that deleted something halves it, one that found nothing doubles it, within the limits *)
Theorem C34_interval_step : forall d n, minute <= d <= hour ->
  ((0 < n)%nat -> next_interval n d = Z.max minute (d / 2)) /\ (n = 0%nat -> next_interval n d = Z.min hour (2 * d)).
Proof.
  intros d n H. unfold next_interval, MIN_INTERVAL, MAX_INTERVAL. split; intros Hn.
  - apply Nat.ltb_lt in Hn. rewrite Hn, Z.quot_div_nonneg by lia. destruct (Z.ltb_spec (d / 2) minute); lia.
  - subst n. cbn [Nat.ltb Nat.leb]. destruct (Z.ltb_spec hour (d * 2)); lia.
Qed.

(** * Where it fails *)
(** A database session east of UTC deletes too early: here two hours before the deletion time. *)
Theorem C34_time_zone_refuted : exists g s r s' d', g_tz g = 7200 /\ g_now g = g_dbnow g /\ consistent s /\
  In r (s_jobs s) /\ ~ due g r /\ cr_delete r = Some (g_dbnow g + 7199) /\
  pass g s minute s' d' 0 1 /\ s_jobs s' = [].
Proof.
  set (r := mkCrow 1%N JCompleted 1000000 (Some 1007199)).
  exists (mkSetting 1000000 1000000 7200 3600 3600), (mkStore [r] [] [] []), r, (mkStore [] [] [] []), minute.
  split; [reflexivity|]. split; [reflexivity|]. split.
  { split; cbn; try contradiction; try constructor; try constructor. intros []. }
  split; [now left|]. split.
  { intros [(d & E & H)|(_ & H)]; cbn in *; [injection E as <-; lia|lia]. }
  split; [reflexivity|]. split; [|reflexivity].
  apply (pass_ok (mkSetting 1000000 1000000 7200 3600 3600) (mkStore [r] [] [] []) minute [] [r]); [exists []|exists [r]]; split; reflexivity.
Qed.
(** Log parts are deleted by age alone, also those of a job that is still running. *)
Theorem C34_logs_of_running_job_refuted : exists g s r t l s' d', g_tz g = 0 /\ consistent s /\
  In r (s_jobs s) /\ cr_state r = JRunning /\ In t (s_tasks s) /\ ct_job t = cr_id r /\ In l (s_logs s) /\ cl_task l = ct_id t /\
  pass g s minute s' d' 1 0 /\ s_jobs s' = s_jobs s /\ s_logs s' = [].
Proof.
  set (r := mkCrow 1%N JRunning 0 None). set (t := mkCtrow 2%N 1%N). set (l := mkClrow 3%N 2%N 10).
  exists (mkSetting 10000 10000 0 3600 3600), (mkStore [r] [t] [l] []), r, t, l, (mkStore [r] [t] [] []), minute.
  split; [reflexivity|]. split.
  { split; cbn.
    - intros x [<-|[]]. now left. - intros x [<-|[]]. now left. - contradiction.
    - constructor; [intros []|constructor]. - constructor; [intros []|constructor]. - constructor; [intros []|constructor]. - constructor. }
  repeat (split; [now left || reflexivity|]). split; [|split; reflexivity].
  apply (pass_ok (mkSetting 10000 10000 0 3600 3600) (mkStore [r] [t] [l] []) minute [l] []); [exists [l]|exists []]; split; reflexivity.
Qed.

(** ** A case meeting the hypotheses: an old completed job goes with its task, log and permission, a running one stays *)
Definition cleanup_store : store :=
  mkStore [mkCrow 1%N JCompleted 0 None; mkCrow 2%N JRunning 0 None; mkCrow 3%N JFailed 9000 (Some 9500)]
          [mkCtrow 11%N 1%N; mkCtrow 12%N 2%N] [mkClrow 21%N 11%N 9000; mkClrow 22%N 12%N 9000] [mkCprow 31%N 1%N; mkCprow 32%N 2%N].
Example cleanup_at_work : exists s' d', pass (mkSetting 10000 10000 0 3600 3600) cleanup_store minute s' d' 0 2 /\ consistent cleanup_store /\
  s' = mkStore [mkCrow 2%N JRunning 0 None] [mkCtrow 12%N 2%N] [mkClrow 22%N 12%N 9000] [mkCprow 32%N 2%N] /\ d' = minute.
Proof.
  eexists _, _. split.
  { apply (pass_ok (mkSetting 10000 10000 0 3600 3600) cleanup_store minute [] [mkCrow 1%N JCompleted 0 None; mkCrow 3%N JFailed 9000 (Some 9500)]);
      [exists []|exists [mkCrow 1%N JCompleted 0 None; mkCrow 3%N JFailed 9000 (Some 9500)]]; split; reflexivity. }
  split; [|split; reflexivity].
  split; cbn; try (repeat constructor; cbn; intuition discriminate);
    intros x Hx; repeat (destruct Hx as [<-|Hx]; [cbn; tauto|]); destruct Hx.
Qed.

Print Assumptions C34_consistent.
Print Assumptions C34_only_expired.
Print Assumptions C34_live_jobs_stay.
Print Assumptions C34_progress.
Print Assumptions C34_interval.
Print Assumptions C34_interval_step.
Print Assumptions C34_time_zone_refuted.
Print Assumptions C34_logs_of_running_job_refuted.
