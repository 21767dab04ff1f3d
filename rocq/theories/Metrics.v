(** C96: what the metrics and the figures of queues say.
    datastore/postgres/postgres.go:1250-1270 (GetMetrics), 575-591 (GetActiveNodes); internal/coordinator/api/api.go:
    234-256 (listQueues, getQueue), 791-797 (getMetrics); broker/rabbitmq.go:62-68, 136-199 (Queues, QueueInfo,
    rabbitQueues); broker/inmemory.go:98-138, 181-210 (size, subscribe, Queues, QueueInfo, DeleteQueue). *)
From Verif Require Import Types World Heartbeat Wire.
From Coq Require Import QArith Qminmax.
Open Scope string_scope.
Open Scope list_scope.
Open Scope Z_scope.

(* ------------------------------------------------------------------ *)
(** * Metrics *)
(** The three tables; identifiers are primary keys (schema.go:6,60,78) *)
Record db := mkDb { d_jobs : list job; d_tasks : list task; d_nodes : list node }.
Definition keys_ok (d : db) : Prop := NoDup (map j_id (d_jobs d)) /\ NoDup (map t_id (d_tasks d)) /\ NoDup (map n_id (d_nodes d)).

Definition job_running (j : job) : bool := match j_state j with JRunning => true | _ => false end.
Definition task_running (t : task) : bool := match t_state t with TRunning => true | _ => false end.
(** postgres.go:1253: select count( * ) from jobs where state = 'RUNNING' *)
Definition q_jobs (d : db) : nat := List.length (filter job_running (d_jobs d)).
(** 1257: tasks t join jobs j on t.job_id = j.id where both run: the pairs of rows that meet the condition *)
Definition q_tasks (d : db) : nat :=
  List.length (filter (fun p => N.eqb (t_job (fst p)) (j_id (snd p)) && task_running (fst p) && job_running (snd p))
                      (list_prod (d_tasks d) (d_jobs d))).
(** 1261: last_heartbeat_at has no time zone and holds UTC; comparing it with current_timestamp reads it in the time
    zone of the session ([tz] microseconds east of UTC) *)
Definition beating (tz now : Z) (n : node) : bool := now - 300 * 10 ^ 6 <? n_heartbeat n - tz.
Definition q_nodes (tz now : Z) (d : db) : nat := List.length (filter (beating tz now) (d_nodes d)).
(** 1265: coalesce(avg(cpu_percent),0); percentages as whole numbers, the average exact (the code's are binary floating
    point numbers) *)
Definition sum_cpu (l : list node) : Z := fold_right (fun n s => n_cpu n + s) 0 l.
Definition avg_cpu (l : list node) : Q := match l with [] => 0%Q | _ => (inject_Z (sum_cpu l) / inject_Z (Z.of_nat (List.length l)))%Q end.
Definition q_cpu (tz now : Z) (d : db) : Q := avg_cpu (filter (beating tz now) (d_nodes d)).

(** stats.go:3-20 *)
Record metrics := mkMetrics { mt_jobs : nat; mt_tasks : nat; mt_nodes : nat; mt_cpu : Q }.
(** What the database holds, and what its clock says, as time passes *)
Record history := mkHistory { at_ : nat -> db; clock : nat -> Z }.
(** postgres.go:1250-1270: four statements, each on a connection of its own, so each sees the database of its own
    instant [i1 <= i2 <= i3 <= i4]; [ok k] says whether the k-th succeeds.  The first that fails ends the call. *)
Definition get_metrics (tz : Z) (h : history) (ok : nat -> bool) (i1 i2 i3 i4 : nat) : option metrics :=
  if negb (ok 0%nat) then None else if negb (ok 1%nat) then None else if negb (ok 2%nat) then None else if negb (ok 3%nat) then None else
  Some (mkMetrics (q_jobs (at_ h i1)) (q_tasks (at_ h i2)) (q_nodes tz (clock h i3) (at_ h i3)) (q_cpu tz (clock h i4) (at_ h i4))).
(** postgres.go:575-591, 284-304: GET /nodes at the instant [i]: the rows as reported.  (The order, by name, is of no
    concern here.)  [now] is the coordinator's clock *)
Definition active_nodes (now : Z) (d : db) : list node :=
  map (to_node now) (filter (fun n => now - LAST_HEARTBEAT_TIMEOUT <? n_heartbeat n) (d_nodes d)).

(** ** Specification *)
(** there are exactly [k] things of which [P] holds *)
Definition number {A} (P : A -> Prop) (k : nat) : Prop := exists l, NoDup l /\ (forall x, In x l <-> P x) /\ List.length l = k.
Definition a_running_job (d : db) (i : id) : Prop := exists j, In j (d_jobs d) /\ j_id j = i /\ j_state j = JRunning.
Definition a_running_task (d : db) (i : id) : Prop :=
  exists t, In t (d_tasks d) /\ t_id t = i /\ t_state t = TRunning /\ a_running_job d (t_job t).
Definition five_minutes : Z := 300000000.
(** a node heard of in the last five minutes *)
Definition an_active_node (now : Z) (d : db) (i : id) : Prop :=
  exists n, In n (d_nodes d) /\ n_id n = i /\ n_heartbeat n > now - five_minutes.

(** ** Proofs *)
Lemma number_ids : forall A (f : A -> id) (p : A -> bool) (l : list A), NoDup (map f l) ->
  number (fun i => exists x, In x l /\ f x = i /\ p x = true) (List.length (filter p l)).
Proof.
  intros A f p l N. exists (map f (filter p l)). split; [|split; [|apply map_length]].
  - revert N. induction l as [|x l IH]; cbn; [constructor|]. intros N; inversion N as [|? ? Hx Hl]; subst.
    destruct (p x); cbn; [|exact (IH Hl)]. constructor; [|exact (IH Hl)].
    intros I. apply Hx. apply in_map_iff in I. destruct I as (y & <- & Iy). apply in_map. apply filter_In in Iy. tauto.
  - intros i. rewrite in_map_iff. split.
    + intros (x & <- & Ix). apply filter_In in Ix. exists x. tauto.
    + intros (x & Ix & <- & P). exists x. split; [reflexivity|]. apply filter_In. tauto.
Qed.
Lemma number_iff : forall A (P Q : A -> Prop) k, (forall x, P x <-> Q x) -> number P k -> number Q k.
Proof. intros A P Q k E (l & N & I & L). exists l. split; [exact N|]. split; [|exact L]. intros x. rewrite I. apply E. Qed.
Lemma number_unique : forall A (P : A -> Prop) k k', number P k -> number P k' -> k = k'.
Proof.
  intros A P k k' (l & N & I & <-) (l' & N' & I' & <-).
  apply Nat.le_antisymm; apply NoDup_incl_length; try assumption; intros x; rewrite I, I'; auto.
Qed.
(** joining on a primary key keeps at most one pair for each row *)
Lemma join_one : forall (t : task) (jobs : list job) (p : task -> job -> bool), NoDup (map j_id jobs) ->
  List.length (filter (fun j => N.eqb (t_job t) (j_id j) && p t j) jobs) = if existsb (fun j => N.eqb (t_job t) (j_id j) && p t j) jobs then 1%nat else 0%nat.
Proof.
  intros t jobs p. induction jobs as [|j l IH]; cbn; [reflexivity|]. intros N; inversion N as [|? ? Hx Hl]; subst.
  destruct (N.eqb (t_job t) (j_id j) && p t j) eqn:E; cbn; [|exact (IH Hl)].
  apply andb_prop in E. destruct E as (E & _). apply N.eqb_eq in E.
  replace (filter _ l) with (@nil job); [reflexivity|]. symmetry.
  assert (F : forall k, In k l -> (N.eqb (t_job t) (j_id k) && p t k)%bool = false).
  { intros k Ik. destruct (N.eqb_spec (t_job t) (j_id k)) as [E'|]; [|reflexivity]. exfalso. apply Hx. rewrite <- E, E'. apply in_map. exact Ik. }
  clear - F. induction l as [|k l IH]; cbn; [reflexivity|]. rewrite (F k (or_introl eq_refl)). apply IH. intros k' Ik. apply F. right. exact Ik.
Qed.
Lemma join_count : forall (tasks : list task) (jobs : list job), NoDup (map j_id jobs) ->
  List.length (filter (fun p => N.eqb (t_job (fst p)) (j_id (snd p)) && task_running (fst p) && job_running (snd p)) (list_prod tasks jobs)) =
  List.length (filter (fun t => existsb (fun j => N.eqb (t_job t) (j_id j) && (task_running t && job_running j)) jobs) tasks).
Proof.
  intros tasks jobs N. induction tasks as [|t l IH]; cbn [list_prod filter]; [reflexivity|].
  rewrite filter_app, app_length, IH. clear IH.
  assert (L : List.length (filter (fun p : task * job => N.eqb (t_job (fst p)) (j_id (snd p)) && task_running (fst p) && job_running (snd p)) (map (fun y => (t, y)) jobs)) =
              List.length (filter (fun j => N.eqb (t_job t) (j_id j) && (task_running t && job_running j)) jobs)).
  { clear N. induction jobs as [|j r IH]; cbn; [reflexivity|]. rewrite <- andb_assoc.
    destruct (N.eqb (t_job t) (j_id j) && (task_running t && job_running j))%bool; cbn; rewrite IH; reflexivity. }
  rewrite L, (join_one t jobs (fun t j => task_running t && job_running j)%bool N).
  destruct (existsb _ jobs); reflexivity.
Qed.

Lemma q_jobs_ok : forall d, keys_ok d -> number (a_running_job d) (q_jobs d).
Proof.
  intros d (K & _). eapply number_iff; [|exact (number_ids _ j_id job_running (d_jobs d) K)]. intros i; cbn beta. unfold a_running_job, job_running.
  split; intros (j & I & E & R); exists j; (split; [exact I|]); (split; [exact E|]); [destruct (j_state j); (reflexivity || discriminate R)|rewrite R; reflexivity].
Qed.
Lemma q_tasks_ok : forall d, keys_ok d -> number (a_running_task d) (q_tasks d).
Proof.
  intros d (K & T & _). unfold q_tasks. rewrite join_count by exact K.
  eapply number_iff; [|exact (number_ids _ t_id _ (d_tasks d) T)]. intros i; cbn beta. unfold a_running_task, a_running_job.
  split; intros (t & I & E & R); exists t; (split; [exact I|]); (split; [exact E|]).
  - apply existsb_exists in R. destruct R as (j & Ij & R). apply andb_prop in R. destruct R as (R1 & R2). apply andb_prop in R2. destruct R2 as (R2 & R3).
    apply N.eqb_eq in R1. unfold task_running in R2. unfold job_running in R3. split; [destruct (t_state t); (reflexivity || discriminate R2)|].
    exists j. split; [exact Ij|]. split; [symmetry; exact R1|]. destruct (j_state j); (reflexivity || discriminate R3).
  - destruct R as (R2 & j & Ij & R1 & R3). apply existsb_exists. exists j. split; [exact Ij|]. unfold task_running, job_running. rewrite R1, R2, R3, N.eqb_refl. reflexivity.
Qed.
Lemma q_nodes_ok : forall d now, keys_ok d -> number (an_active_node now d) (q_nodes 0 now d).
Proof.
  intros d now (_ & _ & K). eapply number_iff; [|exact (number_ids _ n_id (beating 0 now) (d_nodes d) K)]. intros i; cbn beta. unfold an_active_node, beating, five_minutes.
  change (300 * 10 ^ 6) with 300000000.
  split; intros (n & I & E & R); exists n; (split; [exact I|]); (split; [exact E|]); [apply Z.ltb_lt in R|apply Z.ltb_lt]; lia.
Qed.

(** What a call reports, with a database session in UTC: each figure is exact at an instant during the call, and these
    instants come in the order of the figures. *)
Theorem C96_metrics : forall h ok i1 i2 i3 i4 m, get_metrics 0 h ok i1 i2 i3 i4 = Some m ->
  (forall i, keys_ok (at_ h i)) ->
  number (a_running_job (at_ h i1)) (mt_jobs m) /\
  number (a_running_task (at_ h i2)) (mt_tasks m) /\
  number (an_active_node (clock h i3) (at_ h i3)) (mt_nodes m).
Proof.
  intros h ok i1 i2 i3 i4 m G K. unfold get_metrics in G.
  destruct (ok 0%nat); [|discriminate G]. destruct (ok 1%nat); [|discriminate G]. destruct (ok 2%nat); [|discriminate G]. destruct (ok 3%nat); [|discriminate G].
  injection G as <-. split; [exact (q_jobs_ok _ (K i1))|]. split; [exact (q_tasks_ok _ (K i2))|exact (q_nodes_ok _ _ (K i3))].
Qed.
Print Assumptions C96_metrics.

(** A call gives figures iff all four statements succeed: never some of them. *)
Theorem C96_all_or_nothing : forall tz h ok i1 i2 i3 i4,
  (exists m, get_metrics tz h ok i1 i2 i3 i4 = Some m) <-> ok 0%nat = true /\ ok 1%nat = true /\ ok 2%nat = true /\ ok 3%nat = true.
Proof.
  intros tz h ok i1 i2 i3 i4. unfold get_metrics.
  destruct (ok 0%nat), (ok 1%nat), (ok 2%nat), (ok 3%nat); cbn; split; try (intros (m & D); discriminate D); try (intros (A & B & C & D); discriminate); intros _; eauto.
Qed.
Print Assumptions C96_all_or_nothing.

(** While nothing changes during the call, the figures fit together: running tasks mean running jobs, at least one; no
    node means no load. *)
Theorem C96_quiet : forall h ok i m, get_metrics 0 h ok i i i i = Some m -> keys_ok (at_ h i) ->
  (mt_tasks m <> 0%nat -> mt_jobs m <> 0%nat) /\ (mt_nodes m = 0%nat -> mt_cpu m = 0%Q).
Proof.
  intros h ok i m G K. unfold get_metrics in G.
  destruct (ok 0%nat); [|discriminate G]. destruct (ok 1%nat); [|discriminate G]. destruct (ok 2%nat); [|discriminate G]. destruct (ok 3%nat); [|discriminate G].
  injection G as <-. cbn [negb mt_tasks mt_jobs mt_nodes mt_cpu]. split.
  - intros T J. destruct (q_tasks_ok _ K) as (l & _ & I & L). destruct (q_jobs_ok _ K) as (l' & _ & I' & L').
    rewrite J in L'. destruct l' as [|? ?]; [|discriminate L']. destruct l as [|x l]; [cbn in L; congruence|].
    destruct (proj1 (I x) (or_introl eq_refl)) as (t & _ & _ & _ & RJ). exact (proj2 (I' (t_job t)) RJ).
  - unfold q_nodes, q_cpu. destruct (filter _ _); [reflexivity|discriminate].
Qed.
Print Assumptions C96_quiet.

(** The load is the mean of the active nodes' loads: their sum over their number, hence between the least and the
    greatest of them. *)
Lemma sum_between : forall lo hi l, (forall n, In n l -> lo <= n_cpu n <= hi) -> lo * Z.of_nat (List.length l) <= sum_cpu l <= hi * Z.of_nat (List.length l).
Proof.
  intros lo hi l. induction l as [|n l IH]; cbn [sum_cpu fold_right List.length]; [lia|]. intros B.
  pose proof (B n (or_introl eq_refl)). assert (B' : forall x, In x l -> lo <= n_cpu x <= hi) by (intros x Ix; apply B; right; exact Ix).
  specialize (IH B'). unfold sum_cpu in *. rewrite Nat2Z.inj_succ. lia.
Qed.
Theorem C96_cpu : forall tz now d k, k = q_nodes tz now d -> k <> 0%nat ->
  (exists l, (forall n, In n l <-> In n (d_nodes d) /\ now - five_minutes < n_heartbeat n - tz) /\ List.length l = k /\
             (q_cpu tz now d * inject_Z (Z.of_nat k) == inject_Z (sum_cpu l))%Q) /\
  forall lo hi, (forall n, In n (d_nodes d) -> lo <= n_cpu n <= hi) -> (inject_Z lo <= q_cpu tz now d <= inject_Z hi)%Q.
Proof.
  intros tz now d k -> K. unfold q_nodes in *. unfold q_cpu.
  assert (In_l : forall n, In n (filter (beating tz now) (d_nodes d)) <-> In n (d_nodes d) /\ now - five_minutes < n_heartbeat n - tz).
  { intros n. rewrite filter_In. unfold beating, five_minutes. change (300 * 10 ^ 6) with 300000000. rewrite Z.ltb_lt. tauto. }
  set (l := filter (beating tz now) (d_nodes d)) in *. clearbody l.
  assert (P : 0 < Z.of_nat (List.length l)) by lia.
  assert (Q0 : ~ (inject_Z (Z.of_nat (List.length l)) == 0)%Q) by (unfold Qeq; cbn; lia).
  assert (A : avg_cpu l = (inject_Z (sum_cpu l) / inject_Z (Z.of_nat (List.length l)))%Q) by (destruct l; [cbn in K; congruence|reflexivity]).
  rewrite A. clear A. split.
  - exists l. split; [exact In_l|]. split; [reflexivity|]. field. exact Q0.
  - intros lo hi B. assert (B' : forall n, In n l -> lo <= n_cpu n <= hi) by (intros n I; apply B; apply In_l; exact I).
    destruct (sum_between lo hi l B') as (L & H). assert (PQ : (0 < inject_Z (Z.of_nat (List.length l)))%Q) by (unfold Qlt; cbn; lia).
    split; [apply Qle_shift_div_l|apply Qle_shift_div_r]; try exact PQ; rewrite <- inject_Z_mult; rewrite <- Zle_Qle; assumption.
Qed.
Print Assumptions C96_cpu.

(** The metrics and GET /nodes agree: at one instant, on the same clock, the number online is the number of nodes
    listed. *)
Theorem C96_nodes_agree : forall now d, q_nodes 0 now d = List.length (active_nodes now d).
Proof.
  intros now d. unfold q_nodes, active_nodes. rewrite map_length. f_equal. apply filter_ext. intros n. unfold beating, LAST_HEARTBEAT_TIMEOUT.
  f_equal. lia.
Qed.
Print Assumptions C96_nodes_agree.

(** ** What does not hold *)
Definition a_job (i : N) (s : jstate) : job := zero_job <| j_id := i |> <| j_state := s |>.
Definition a_task (i j : N) (s : tstate) : task := zero_task <| t_id := i |> <| t_job := j |> <| t_state := s |>.
Definition a_node (i : N) (cpu beat : Z) (s : nstatus) : node := mkNode i "n" 0 cpu beat "q" s "h" 0 0 "v".
Definition all_ok (k : nat) : bool := true.
(** The figures are not of one instant: a job starts during the call, and there is a running task but no running job. *)
Definition h_start : history :=
  mkHistory (fun i => if Nat.eqb i 0%nat then mkDb [a_job 1 JScheduled] [a_task 10 1 TPending] []
                      else mkDb [a_job 1 JRunning] [a_task 10 1 TRunning] []) (fun _ => 0).
Theorem C96_snapshot_refuted : exists h m, (forall i, keys_ok (at_ h i)) /\
  get_metrics 0 h all_ok 0 1 1 1 = Some m /\ mt_jobs m = 0%nat /\ mt_tasks m = 1%nat.
Proof.
  exists h_start, (mkMetrics 0 1 0 0%Q). split; [|split; [vm_compute; reflexivity|split; reflexivity]].
  intros i. unfold h_start, at_. destruct (Nat.eqb i 0%nat); (split; [|split]); cbn; repeat constructor; cbn; intuition discriminate.
Qed.
Print Assumptions C96_snapshot_refuted.
(** "online" counts nodes that are OFFLINE or DOWN in the list of nodes given at the same instant. *)
Theorem C96_online_refuted : exists now d, keys_ok d /\ q_nodes 0 now d = 2%nat /\ forall n, In n (active_nodes now d) -> n_status n <> NUp.
Proof.
  exists 1000000000, (mkDb [] [] [a_node 1 50 900000000 NUp; a_node 2 0 999000000 NDown]). split; [|split; [reflexivity|]].
  - split; [constructor|]. split; [constructor|]. cbn. repeat constructor; cbn; intuition discriminate.
  - cbn. intros n [<-|[<-|[]]]; discriminate.
Qed.
Print Assumptions C96_online_refuted.
(** In another time zone the count is off: five hours west of UTC a node is online for five hours after its last
    heartbeat; one hour east no node is ever online, whatever its heartbeats, and the load is 0. *)
Theorem C96_time_zone_refuted :
  (exists now n, n_heartbeat n < now - 17900 * 10 ^ 6 /\ q_nodes (-18000 * 10 ^ 6) now (mkDb [] [] [n]) = 1%nat) /\
  (forall now d, (forall n, In n (d_nodes d) -> n_heartbeat n <= now) -> q_nodes (3600 * 10 ^ 6) now d = 0%nat /\ q_cpu (3600 * 10 ^ 6) now d = 0%Q).
Proof.
  split.
  - exists (20000 * 10 ^ 6), (a_node 1 50 (2050 * 10 ^ 6) NUp). split; [reflexivity|reflexivity].
  - intros now d B. unfold q_nodes, q_cpu. replace (filter (beating (3600 * 10 ^ 6) now) (d_nodes d)) with (@nil node); [split; reflexivity|].
    symmetry. induction (d_nodes d) as [|n l IH]; [reflexivity|]. cbn [filter]. unfold beating at 1. pose proof (B n (or_introl eq_refl)) as Bn.
    assert (E : (now - 300 * 10 ^ 6 <? n_heartbeat n - 3600 * 10 ^ 6) = false) by (apply Z.ltb_ge; change (300 * 10 ^ 6) with 300000000; change (3600 * 10 ^ 6) with 3600000000; lia).
    rewrite E. apply IH. intros x Ix. apply B. right. exact Ix.
Qed.
Print Assumptions C96_time_zone_refuted.

Definition d_ex : db := mkDb [a_job 1 JRunning; a_job 2 JRunning; a_job 3 JCompleted]
  [a_task 10 1 TRunning; a_task 11 1 TRunning; a_task 12 3 TRunning; a_task 13 2 TPending]
  [a_node 1 50 900000000 NUp; a_node 2 25 999000000 NUp; a_node 3 99 100000000 NUp].
Example metrics_given : keys_ok d_ex /\ exists c, (c == 75 # 2)%Q /\
  get_metrics 0 (mkHistory (fun _ => d_ex) (fun _ => 1000000000)) all_ok 0 0 0 0 = Some (mkMetrics 2 2 2 c).
Proof.
  split; [split; [|split]; cbn; repeat constructor; cbn; intuition discriminate|].
  exists (q_cpu 0 1000000000 d_ex). split; [vm_compute; reflexivity|]. vm_compute. reflexivity.
Qed.

(* ------------------------------------------------------------------ *)
(** * Queues as RabbitMQ's management interface lists them *)
(** rabbitmq.go:62-68: an entry of the answer; a field that is missing decodes as "" or 0 (a queue declared a moment ago
    has no figures yet) *)
Record entry := mkEntry { e_name : option string; e_messages : option Z; e_consumers : option Z; e_unacked : option Z }.
Definition or_zero (x : option Z) : Z := match x with Some v => v | None => 0 end.
(** inmemory.go and queues.go:42-47 *)
Record qinfo := mkInfo { qi_name : string; qi_size : Z; qi_subs : Z; qi_unacked : Z }.
(** What the management interface answers: nothing, or a status and a body: a list of entries, null, or something else
    (an object, or no JSON) *)
Inductive body := BList (l : list entry) | BNull | BOther.
Inductive answer := NoAnswer | Answer (status : Z) (b : body).
(** rabbitmq.go:171-199: the status is not looked at; null leaves the list empty *)
Definition rabbit_queues (a : answer) : option (list entry) :=
  match a with Answer _ (BList l) => Some l | Answer _ BNull => Some [] | _ => None end.
Definition name_of (e : entry) : string := match e_name e with Some n => n | None => "" end.
Definition to_info (e : entry) : qinfo := mkInfo (name_of e) (or_zero (e_messages e)) (or_zero (e_consumers e)) (or_zero (e_unacked e)).
(** 136-151 *)
Definition rabbit_list (a : answer) : option (list qinfo) := option_map (map to_info) (rabbit_queues a).
(** 153-169 *)
Definition rabbit_info (a : answer) (q : string) : option qinfo :=
  match rabbit_queues a with
  | None => None
  | Some l => match find (fun e => String.eqb (name_of e) q) l with
              | Some e => Some (mkInfo q (or_zero (e_messages e)) (or_zero (e_consumers e)) (or_zero (e_unacked e))) | None => None end end.
(** api.go:234-256: the answers of GET /queues and GET /queues/:name *)
Inductive reply (A : Type) := Ok200 (x : A) | Err (status : Z).
Arguments Ok200 {A} x. Arguments Err {A} status.
Definition get_queues (a : answer) : reply (list qinfo) := match rabbit_list a with Some l => Ok200 l | None => Err 400 end.
Definition get_queue (a : answer) (q : string) : reply qinfo := match rabbit_info a q with Some i => Ok200 i | None => Err 404 end.

(** From one and the same answer, the list has one line for each entry, in order, with its figures; a single queue is
    given iff it is in the list, and what is given is the first line with its name. *)
Theorem C96_queues : forall a q,
  (forall l, get_queues a = Ok200 l ->
     (forall i, get_queue a q = Ok200 i <-> exists u v, l = u ++ i :: v /\ qi_name i = q /\ forall x, In x u -> qi_name x <> q) /\
     (get_queue a q = Err 404 <-> ~ In q (map qi_name l))) /\
  (forall st, get_queues a = Err st -> st = 400 /\ get_queue a q = Err 404) /\
  (forall s es, a = Answer s (BList es) -> exists l, get_queues a = Ok200 l /\
     Forall2 (fun e i => qi_name i = match e_name e with Some n => n | None => "" end /\
                         qi_size i = match e_messages e with Some n => n | None => 0 end /\
                         qi_subs i = match e_consumers e with Some n => n | None => 0 end /\
                         qi_unacked i = match e_unacked e with Some n => n | None => 0 end) es l).
Proof.
  intros a q. unfold get_queues, get_queue, rabbit_list, rabbit_info. split; [|split].
  - intros l. destruct (rabbit_queues a) as [es|]; [|discriminate]. intros E. cbn in E. injection E as <-.
    induction es as [|e es (IH1 & IH2)]; cbn [find map In].
    { split; [intros i; split; [discriminate|intros (u & v & D & _); destruct u; discriminate D]|]. split; [tauto|reflexivity]. }
    destruct (String.eqb_spec (name_of e) q) as [Q|Q].
    + split.
      * intros i. split.
        -- intros E. injection E as <-. exists [], (map to_info es). split; [cbn; unfold to_info at 1; rewrite Q; reflexivity|]. split; [reflexivity|intros x []].
        -- intros (u & v & E & N & F). destruct u as [|x u].
           ++ cbn in E. injection E as E _. rewrite <- E. unfold to_info. rewrite Q. reflexivity.
           ++ cbn in E. injection E as E _. exfalso. apply (F x (or_introl eq_refl)). rewrite <- E. exact Q.
      * split; [discriminate|]. intros N. exfalso. apply N. left. exact Q.
    + split.
      * intros i. rewrite IH1. split.
        -- intros (u & v & E & N & F). exists (to_info e :: u), v. split; [cbn; rewrite E; reflexivity|]. split; [exact N|]. intros x [<-|I]; [exact Q|exact (F x I)].
        -- intros (u & v & E & N & F). destruct u as [|x u].
           ++ cbn in E. injection E as E _. exfalso. apply Q. rewrite <- N, <- E. reflexivity.
           ++ cbn in E. injection E as _ E. exists u, v. split; [exact E|]. split; [exact N|]. intros y I. apply F. right. exact I.
      * rewrite IH2. cbn [qi_name to_info]. tauto.
  - intros st. destruct (rabbit_queues a) as [es|]; cbn; [discriminate|]. intros E. injection E as <-. split; reflexivity.
  - intros s es ->. cbn. eexists. split; [reflexivity|]. induction es as [|e es IH]; cbn; constructor; [repeat split; reflexivity|exact IH].
Qed.
Print Assumptions C96_queues.
Definition an_entry (n : string) (m c u : Z) : entry := mkEntry (Some n) (Some m) (Some c) (Some u).
Example queues_listed :
  get_queue (Answer 200 (BList [an_entry "default" 3 2 1; an_entry "jobs" 0 1 0])) "jobs" = Ok200 (mkInfo "jobs" 0 1 0) /\
  get_queue (Answer 200 (BList [an_entry "default" 3 2 1])) "jobs" = Err 404 /\ get_queues (Answer 401 BOther) = Err 400.
Proof. repeat split; reflexivity. Qed.

(** The list has the queues of every virtual host: a name can come twice, and what is reported of it can be another
    application's.  A failure whose body is a list, or null, counts as an answer: no queue, and "not found". *)
Theorem C96_other_hosts_refuted : exists mine other a, a = Answer 200 (BList [other; mine]) /\ e_name mine = Some "default" /\ e_messages mine = Some 7 /\
  get_queue a "default" = Ok200 (mkInfo "default" 0 0 0).
Proof. exists (an_entry "default" 7 1 0), (an_entry "default" 0 0 0). eexists. split; [reflexivity|]. split; [reflexivity|]. split; reflexivity. Qed.
Print Assumptions C96_other_hosts_refuted.
Theorem C96_failure_as_empty_refuted : forall status q, get_queues (Answer status BNull) = Ok200 [] /\ get_queue (Answer status BNull) q = Err 404.
Proof. intros status q. split; reflexivity. Qed.
Print Assumptions C96_failure_as_empty_refuted.

(* ------------------------------------------------------------------ *)
(** * The figures of a queue of the in-memory broker *)
(** Where the goroutine of a subscription is (inmemory.go:126-144): waiting; with a message in hand that is not counted
    yet; in the handler; after it; gone.  [Adding] is between <-q.ch and AddInt32(1), [Leaving] between the handler's
    return and AddInt32(-1). *)
Inductive phase := Waiting | Adding | Handling | Leaving | Gone.
(** a queue (inmemory.go:84-90); [sent] and [handled], for the specification only, count the messages put in and those
    whose handler has returned *)
Record queue := mkQueue { q_chan : nat; q_subs : list phase; q_unacked : Z; q_sent : nat; q_handled : nat }.
Definition new_queue : queue := mkQueue 0 [] 0 0 0.
(** defaultQueueSize *)
Definition CAP : nat := 1000.
Inductive qstep : queue -> queue -> Prop :=
(* 105-107: waits while the channel is full *)
| q_send : forall c l u s h, (c < CAP)%nat -> qstep (mkQueue c l u s h) (mkQueue (S c) l u (S s) h)
(* 125-133 *)
| q_subscribe : forall c l u s h, qstep (mkQueue c l u s h) (mkQueue c (l ++ [Waiting]) u s h)
(* 140-144 *)
| q_take : forall c a b u s h, qstep (mkQueue (S c) (a ++ Waiting :: b) u s h) (mkQueue c (a ++ Adding :: b) u s h)
| q_add : forall c a b u s h, qstep (mkQueue c (a ++ Adding :: b) u s h) (mkQueue c (a ++ Handling :: b) (u + 1) s h)
| q_return : forall c a b u s h, qstep (mkQueue c (a ++ Handling :: b) u s h) (mkQueue c (a ++ Leaving :: b) u s (S h))
| q_leave : forall c a b u s h, qstep (mkQueue c (a ++ Leaving :: b) u s h) (mkQueue c (a ++ Waiting :: b) (u - 1) s h)
(* 137-139: Shutdown *)
| q_gone : forall c a b u s h, qstep (mkQueue c (a ++ Waiting :: b) u s h) (mkQueue c (a ++ Gone :: b) u s h).
Inductive qrun : queue -> queue -> Prop :=
| qr_nil : forall q, qrun q q
| qr_step : forall q q1 q2, qrun q q1 -> qstep q1 q2 -> qrun q q2.
(** 185-189, 199-204: the three figures; the fields of the answer are read in this order *)
Definition size (q : queue) : Z := Z.of_nat (q_chan q).
Definition subscribers (q : queue) : Z := Z.of_nat (List.length (q_subs q)).
Definition unacked (q : queue) : Z := q_unacked q.
(** published and not through with *)
Definition outstanding (q : queue) : Z := Z.of_nat (q_sent q) - Z.of_nat (q_handled q).
Definition in_phase (p q : phase) : nat := match p, q with Adding, Adding | Handling, Handling | Leaving, Leaving => 1 | _, _ => 0 end.
Fixpoint count (p : phase) (l : list phase) : nat := match l with [] => 0%nat | x :: r => (in_phase p x + count p r)%nat end.
Lemma count_app : forall p a b, count p (a ++ b) = (count p a + count p b)%nat.
Proof. intros p a b. induction a as [|x a IH]; cbn; [reflexivity|]. rewrite IH. lia. Qed.
Definition figures_ok (q : queue) : Prop :=
  q_unacked q = Z.of_nat (count Handling (q_subs q) + count Leaving (q_subs q)) /\
  (q_sent q = q_chan q + count Adding (q_subs q) + count Handling (q_subs q) + q_handled q)%nat /\ (q_chan q <= CAP)%nat.
Lemma figures_step : forall q q', qstep q q' -> figures_ok q -> figures_ok q'.
Proof.
  intros q q' S. unfold figures_ok. destruct S; cbn [q_chan q_subs q_unacked q_sent q_handled]; rewrite ?count_app; cbn [count in_phase]; intros (U & T & C); (split; [|split]); try lia.
Qed.
Lemma figures_run : forall q, qrun new_queue q -> figures_ok q.
Proof.
  intros q R. remember new_queue as q0 eqn:E. induction R as [q|q q1 q2 R IH S]; [subst q; unfold figures_ok; cbn; unfold CAP; lia|exact (figures_step _ _ S (IH E))].
Qed.
Lemma counts_bound : forall l, (count Adding l + count Handling l + count Leaving l <= List.length l)%nat.
Proof. induction l as [|[] l IH]; cbn; lia. Qed.

(** At every instant: size and unacked together are what is outstanding, give or take one message for each subscriber;
    exactly that when no subscriber is between taking a message and counting it, or counting it off; unacked is never
    negative and at most the subscribers; nothing is outstanding and no subscriber between two steps: 0 and 0. *)
Theorem C96_figures : forall q, qrun new_queue q ->
  size q + unacked q - subscribers q <= outstanding q <= size q + unacked q + subscribers q /\
  ((forall p, In p (q_subs q) -> p <> Adding /\ p <> Leaving) -> outstanding q = size q + unacked q) /\
  0 <= unacked q <= subscribers q /\ 0 <= size q <= 1000.
Proof.
  intros q R. destruct (figures_run q R) as (U & T & C). pose proof (counts_bound (q_subs q)) as B.
  unfold size, unacked, subscribers, outstanding. unfold CAP in C. split; [lia|]. split; [|lia].
  intros N. assert (Z0 : count Adding (q_subs q) = 0%nat /\ count Leaving (q_subs q) = 0%nat).
  { clear - N. induction (q_subs q) as [|p l IH]; [split; reflexivity|]. destruct (N p (or_introl eq_refl)) as (N1 & N2).
    destruct IH as (I1 & I2); [intros x I; apply N; right; exact I|]. destruct p; cbn; try congruence; split; assumption. }
  lia.
Qed.
Print Assumptions C96_figures.
(** Everything sent is handled in the end, if handlers return: when no message is left and nobody has one, all three
    figures say so. *)
Theorem C96_idle : forall q, qrun new_queue q -> (forall p, In p (q_subs q) -> p = Waiting \/ p = Gone) -> outstanding q = 0 -> size q = 0 /\ unacked q = 0.
Proof.
  intros q R W O. destruct (C96_figures q R) as (_ & E & (U & _) & (S & _)).
  assert (O' : outstanding q = size q + unacked q) by (apply E; intros p I; destruct (W p I) as [->| ->]; split; discriminate). lia.
Qed.
Print Assumptions C96_idle.

(** 0 and 0 does not mean idle: a message just taken is in neither figure. *)
Theorem C96_zero_means_idle_refuted : exists q, qrun new_queue q /\ size q = 0 /\ unacked q = 0 /\ outstanding q = 1.
Proof.
  exists (mkQueue 0 [Adding] 0 1 0). split; [|repeat split; reflexivity].
  eapply qr_step; [|exact (q_take 0 [] [] 0 1 0)]. eapply qr_step; [|apply q_send; unfold CAP; lia].
  eapply qr_step; [constructor|exact (q_subscribe 0 [] 0 0 0)].
Qed.
Print Assumptions C96_zero_means_idle_refuted.
(** The figures of one answer are read one after another: a message can be in two of them. *)
Theorem C96_counted_twice_refuted : exists q q', qrun new_queue q /\ qrun q q' /\ outstanding q = 1 /\ outstanding q' = 1 /\ size q + unacked q' = 2.
Proof.
  exists (mkQueue 1 [Waiting] 0 1 0), (mkQueue 0 [Handling] 1 1 0). split; [|split; [|repeat split; reflexivity]].
  - eapply qr_step; [|apply q_send; unfold CAP; lia]. eapply qr_step; [constructor|exact (q_subscribe 0 [] 0 0 0)].
  - eapply qr_step; [|exact (q_add 0 [] [] 0 1 0)]. eapply qr_step; [constructor|exact (q_take 0 [] [] 0 1 0)].
Qed.
Print Assumptions C96_counted_twice_refuted.
(** A subscription that has ended is still counted as a subscriber, for ever. *)
Theorem C96_gone_counted_refuted : exists q, qrun new_queue q /\ q_subs q = [Gone] /\ subscribers q = 1 /\ forall q', qrun q q' -> subscribers q' >= 1.
Proof.
  exists (mkQueue 0 [Gone] 0 0 0). split; [|split; [reflexivity|split; [reflexivity|]]].
  - eapply qr_step; [|exact (q_gone 0 [] [] 0 0 0)]. eapply qr_step; [constructor|exact (q_subscribe 0 [] 0 0 0)].
  - assert (G : forall q q', qrun q q' -> subscribers q <= subscribers q').
    { intros q q' R. induction R as [|q q1 q2 R IH S]; [lia|]. revert IH. destruct S; unfold subscribers; cbn [q_subs]; rewrite ?app_length; cbn [List.length]; lia. }
    intros q' R. specialize (G _ _ R). unfold subscribers at 1 in G. cbn in G. lia.
Qed.
Print Assumptions C96_gone_counted_refuted.
(** The two brokers mean different things by size: RabbitMQ's figure ("messages") includes those delivered and not
    acknowledged, so with one message being handled they answer (0, 1) and (1, 1). *)
Definition rabbit_figures (ready delivered : Z) : entry := an_entry "q" (ready + delivered) 1 delivered.
Theorem C96_size_means_two_things_refuted : exists q, qrun new_queue q /\ size q = 0 /\ unacked q = 1 /\ outstanding q = 1 /\
  get_queue (Answer 200 (BList [rabbit_figures 0 1])) "q" = Ok200 (mkInfo "q" 1 1 1).
Proof.
  exists (mkQueue 0 [Handling] 1 1 0). split; [|repeat split; reflexivity].
  eapply qr_step; [|exact (q_add 0 [] [] 0 1 0)]. eapply qr_step; [|exact (q_take 0 [] [] 0 1 0)]. eapply qr_step; [|apply q_send; unfold CAP; lia].
  eapply qr_step; [constructor|exact (q_subscribe 0 [] 0 0 0)].
Qed.
Print Assumptions C96_size_means_two_things_refuted.
