(** C82: the coordinator's database connections and row locks.

    The PostgreSQL datastore works over a pool of at most [max_open_conns] connections.  A statement takes a connection
    for its duration; a transaction keeps one from its beginning to its end, with the rows it has locked.  Some calls
    take a second connection while they keep the first.  This file models, call by call, which connections are taken,
    which rows are locked and in which order, and shows when the handlers of a coordinator can, and cannot, end up
    waiting for each other for ever.

    Code modelled:
      datastore/postgres/postgres.go:60-66, 117-141 (WithMaxOpenConns, NewPostgresDataStore),
        1584-1614 (get, select_, exec), 1615-1645 (WithTx), 414-524 (UpdateTask), 536-562 (UpdateNode),
        733-782 (UpdateJob), 1537-1567 (UpdateScheduledJob), 658-694 (CreateJob), CreateTask, CreateTaskLogPart,
        869-878 (GetNextTask), GetUser, GetTaskByID and the other plain reads;
      internal/coordinator/handlers/completed.go:62-222 (the three completing transactions);
      db/postgres/schema.go:102, 132, 181 (the foreign keys, whose checks lock the row referred to).

    Not modelled: DeleteJob/DeleteScheduledJob/expungeExpiredJobs (they lock many rows at once, in the order PostgreSQL
    finds them), the contents of the rows (see Tx.v and the system model), statement errors other than as "this call
    fails here", PostgreSQL's own deadlock detector (the waits shown here for a connection are invisible to it). *)
From Coq Require Import List Arith ZArith Lia Bool.
Import ListNotations.
Set Implicit Arguments.

(** Identifiers are opaque (they are random 32-character strings in the code); here they are numbers. *)
Definition id := nat.

(** The rows that calls lock: db/postgres/schema.go, tables tasks, jobs, nodes, scheduled_jobs. *)
Inductive row := RTask (t : id) | RJob (j : id) | RNode (n : id) | RSched (s : id).

Definition row_eqb (a b : row) : bool :=
  match a, b with
  | RTask x, RTask y | RJob x, RJob y | RNode x, RNode y | RSched x, RSched y => Nat.eqb x y
  | _, _ => false
  end.

(** [Excl]: select ... for update; [Share]: the lock a foreign key check takes on the row referred to (for key share).
    Two share locks are compatible, all other pairs conflict. *)
Inductive mode := Excl | Share.
Definition conflict (a b : mode) : bool := match a, b with Share, Share => false | _, _ => true end.

(** What a call does with the pool and with rows, in order.  [Begin]: take a connection; [Lock]: lock a row in the
    session opened last; [End]: end the session opened last (commit, or end of an autocommitted statement), which frees
    its rows and gives the connection back. *)
Inductive instr := Begin | Lock (r : row) (m : mode) | End.

(** ** The calls, function by function *)

(** A datastore value is either the pool or one transaction: postgres.go:24-38, 1628-1630 *)
Inductive handle := Pool | InTx.

(** postgres.go:1584-1598 get, select_: outside a transaction a statement takes a connection of its own *)
Definition stmt (h : handle) : list instr := match h with Pool => [Begin; End] | InTx => [] end.

(** postgres.go:1615-1645 WithTx: only the outermost begins and ends a transaction *)
Definition with_tx (h : handle) (f : handle -> list instr) : list instr :=
  match h with Pool => Begin :: f InTx ++ [End] | InTx => f InTx end.

(** postgres.go:1600-1606 exec of an insert with a reference to row [r] *)
Definition insert_ref (h : handle) (r : row) : list instr := with_tx h (fun _ => [Lock r Share]).

(** postgres.go:414-524 UpdateTask: the row is locked, then [modify] runs with it locked *)
Definition update_task (h : handle) (t : id) (modify : list instr) : list instr :=
  with_tx h (fun _ => Lock (RTask t) Excl :: modify).

(** postgres.go:733-782 UpdateJob: note line 746, [ds.GetUser]: on the receiver [ds], not on the transaction *)
Definition update_job (h : handle) (j : id) : list instr :=
  with_tx h (fun _ => Lock (RJob j) Excl :: stmt h).

(** postgres.go:1537-1567 UpdateScheduledJob: line 1551, [ds.GetUser] again on the receiver *)
Definition update_sched (h : handle) (s : id) : list instr :=
  with_tx h (fun _ => Lock (RSched s) Excl :: stmt h).

(** postgres.go:536-562 UpdateNode *)
Definition update_node (h : handle) (n : id) : list instr := with_tx h (fun _ => [Lock (RNode n) Excl]).

(** completed.go:188-222, the transaction of completeTopLevelTask *)
Definition complete_top (t j : id) : list instr :=
  with_tx Pool (fun tx => update_task tx t [] ++ update_job tx j).

(** completed.go:135-177, the transaction of completeParallelTask; [v]: the task has a variable and a result *)
Definition complete_parallel (t p j : id) (v : bool) : list instr :=
  with_tx Pool (fun tx => update_task tx t [] ++ update_task tx p [] ++ (if v then update_job tx j else [])).

(** completed.go:62-118, the transaction of completeEachTask.  [nx]: the sibling released, if one is (lines 83-99);
    lines 84 and 89 use [h.ds], the pool, not [tx]. *)
Definition complete_each (t p j : id) (nx : option id) (v : bool) : list instr :=
  with_tx Pool (fun tx =>
    update_task tx t [] ++
    update_task tx p (match nx with Some n => stmt Pool ++ update_task Pool n [] | None => [] end) ++
    (if v then update_job tx j else [])).

(** The calls a handler or the API makes, one after the other. *)
Inductive call :=
| CRead                                   (* GetTaskByID, GetJobByID, GetNextTask, listings, heartbeat inserts ... *)
| CUpdateTask (t : id)
| CUpdateJob (j : id)
| CUpdateNode (n : id)
| CUpdateSched (s : id)
| CCreateTask (j : id)                    (* insert into tasks, job_id references jobs: schema.go:132 *)
| CCreateLogPart (t : id)                 (* insert into tasks_log_parts, task_id references tasks: schema.go:181 *)
| CCreateJob (s : option id)              (* insert into jobs, scheduled_job_id references scheduled_jobs: schema.go:102 *)
| CCompleteTop (t j : id)
| CCompleteParallel (t p j : id) (v : bool)
| CCompleteEach (t p j : id) (release : option id) (v : bool).

Definition script (c : call) : list instr :=
  match c with
  | CRead => stmt Pool
  | CUpdateTask t => update_task Pool t []
  | CUpdateJob j => update_job Pool j
  | CUpdateNode n => update_node Pool n
  | CUpdateSched s => update_sched Pool s
  | CCreateTask j => insert_ref Pool (RJob j)
  | CCreateLogPart t => insert_ref Pool (RTask t)
  | CCreateJob (Some s) => insert_ref Pool (RSched s)
  | CCreateJob None => with_tx Pool (fun _ => [])
  | CCompleteTop t j => complete_top t j
  | CCompleteParallel t p j v => complete_parallel t p j v
  | CCompleteEach t p j nx v => complete_each t p j nx v
  end.

(** ** The machine: any number of handlers, any interleaving *)

(** A session: the rows it has locked. *)
Definition session := list (row * mode).

(** One handler: its open sessions (innermost first), what is left of the call it is making, that call, the calls still
    to make, and the calls that have returned without an error (latest first). *)
Record proc := P { open_ : list session; todo : list instr; cur : call; later : list call; okay : list call }.

Definition start (cs : list call) : proc := P [] [] CRead cs [].

(** A pool state: its handlers. *)
Definition pool := list proc.

(** Connections in use. *)
Definition used (s : pool) : nat := list_sum (map (fun p => length (open_ p)) s).

(** postgres.go:60-66, 129-131: only a positive setting limits the pool (SetMaxOpenConns; without it there is no limit) *)
Definition free_conn (max_open : nat) (s : pool) : bool :=
  match max_open with 0 => true | _ => Nat.ltb (used s) max_open end.

(** Does session [x] stand in the way of locking [r] in mode [m]? *)
Definition holds_against (r : row) (m : mode) (x : session) : bool :=
  existsb (fun e => row_eqb (fst e) r && conflict (snd e) m) x.

(** The sessions other than the innermost one of handler number [i]. *)
Definition other_sessions (s1 : pool) (p : proc) (s2 : pool) : list session :=
  flat_map open_ s1 ++ tl (open_ p) ++ flat_map open_ s2.

(** Can handler [p], between [s1] and [s2], do its next thing now? *)
Definition ready (max_open : nat) (s1 : pool) (p : proc) (s2 : pool) : bool :=
  match todo p with
  | [] => match later p with [] => false | _ => true end
  | Begin :: _ => free_conn max_open (s1 ++ p :: s2)
  | Lock r m :: _ => negb (existsb (holds_against r m) (other_sessions s1 p s2))
  | End :: _ => true
  end.

(** The innermost session locks a row. *)
Definition lock_in (e : row * mode) (st : list session) : list session :=
  match st with [] => [] | x :: k => (e :: x) :: k end.

(** The effect of one instruction on the open sessions. *)
Definition effect (i : instr) (st : list session) : list session :=
  match i with Begin => [] :: st | Lock r m => lock_in (r, m) st | End => tl st end.

(** What [p] is after it has done its next thing. *)
Definition advance (p : proc) : proc :=
  match todo p with
  | [] => match later p with [] => p | c :: l => P (open_ p) (script c) c l (okay p) end
  | i :: k => P (effect i (open_ p)) k (cur p) (later p) (match k with [] => cur p :: okay p | _ => okay p end)
  end.

(** A statement may fail instead (no such row, a guard in [modify], a connection lost): the error goes up through every
    open transaction, which roll back (postgres.go:1631-1639), and the handler gives up (keeping [k] of its plans). *)
Definition give_up (p : proc) (k : nat) : proc := P [] [] (cur p) (skipn k (later p)) (okay p).

Inductive step (max_open : nat) : pool -> pool -> Prop :=
| step_go : forall s1 p s2, ready max_open s1 p s2 = true -> step max_open (s1 ++ p :: s2) (s1 ++ advance p :: s2)
| step_fail : forall s1 p s2 k, ready max_open s1 p s2 = true -> todo p <> [] ->
    step max_open (s1 ++ p :: s2) (s1 ++ give_up p k :: s2).

Inductive steps (max_open : nat) : nat -> pool -> pool -> Prop :=
| steps_0 : forall s, steps max_open 0 s s
| steps_S : forall n s s' s'', step max_open s s' -> steps max_open n s' s'' -> steps max_open (S n) s s''.

Definition reach (max_open : nat) (progs : list (list call)) (s : pool) : Prop :=
  exists n, steps max_open n (map start progs) s.

(** ** Specification *)

(** All calls made. *)
Definition all_done (s : pool) : Prop := Forall (fun p => todo p = [] /\ later p = []) s.

(** Waiting for ever: not all done and nobody can do anything. *)
Definition stuck (max_open : nat) (s : pool) : Prop := ~ all_done s /\ forall s', ~ step max_open s s'.

(** The calls that lock rows. *)
Definition locks (c : call) : bool := match c with CRead | CCreateJob None => false | _ => true end.

(** The calls being made now. *)
Definition in_progress (s : pool) : list call :=
  flat_map (fun p => match todo p with [] => [] | _ => [cur p] end) s.

(** Parent and child: the completing calls name a task and its parent; [depth] is the number of ancestors. *)
Definition nested (depth : id -> nat) (c : call) : Prop :=
  match c with
  | CCompleteParallel t p _ _ | CCompleteEach t p _ _ _ => depth p < depth t
  | _ => True
  end.

(** The tasks a call completes or counts completions of, and the task it releases. *)
Definition completes (c : call) : list id :=
  match c with
  | CCompleteTop t _ => [t]
  | CCompleteParallel t p _ _ | CCompleteEach t p _ _ _ => [t; p]
  | _ => []
  end.
Definition releases (c : call) : list id := match c with CCompleteEach _ _ _ (Some n) _ => [n] | _ => [] end.

(** No completion is being handled of a task (or child of a task) that is only now being released: no worker has it. *)
Definition releases_fresh (cs : list call) : Prop :=
  forall n, In n (flat_map releases cs) -> ~ In n (flat_map completes cs).

(** ** Proofs *)

Section Rank.
  Variable depth : id -> nat.
  Variable rel : list id.

  (** Rows ordered: children before parents, then jobs, then the tasks being released. *)
  Definition rank (r : row) : Z :=
    match r with
    | RTask t => if in_dec Nat.eq_dec t rel then 2 else (- Z.of_nat (depth t))
    | _ => 1
    end.

  Definition below (z : Z) (st : list session) : Prop := Forall (Forall (fun e => (rank (fst e) < z)%Z)) st.

  Fixpoint wf (st : list session) (is : list instr) : Prop :=
    match is with
    | [] => st = []
    | Begin :: k => (st = [] \/ (exists x, st = [x] /\ below 2 st)) /\ wf ([] :: st) k
    | Lock r m :: k =>
        st <> [] /\ below (rank r) st /\ (2 <= length st -> rank r = 2%Z) /\ wf (lock_in (r, m) st) k
    | End :: k => st <> [] /\ wf (tl st) k
    end.

  Lemma rank_task t : ~ In t rel -> rank (RTask t) = (- Z.of_nat (depth t))%Z.
  Proof. intros H. unfold rank. destruct (in_dec Nat.eq_dec t rel); tauto. Qed.
  Lemma rank_rel t : In t rel -> rank (RTask t) = 2%Z.
  Proof. intros H. unfold rank. destruct (in_dec Nat.eq_dec t rel); tauto. Qed.
  Lemma rank_le r : (rank r <= 2)%Z.
  Proof. destruct r; simpl; try lia. destruct (in_dec _ _ _); lia. Qed.

  Lemma script_wf c : nested depth c -> (forall t, In t (completes c) -> ~ In t rel) ->
    (forall t, In t (releases c) -> In t rel) -> wf [] (script c).
  Proof.
    intros N C R.
    assert (B: forall z, below z []) by constructor.
    assert (B1: forall z, below z [[]]) by (repeat constructor).
    destruct c as [|t|j|n|s|j|t|[s|]|t j|t p j v|t p j release v]; cbn [nested completes releases] in *.
    1-9: cbn -[rank];
      repeat match goal with
      | |- _ /\ _ => split
      | |- _ <> _ => discriminate
      | |- [] = [] => reflexivity
      | |- 2 <= 1 -> _ => lia
      | |- _ => solve [auto]
      | |- _ \/ _ => right; eexists; split; [reflexivity|]; repeat constructor; cbn; lia
      end.
    - cbn -[rank]; repeat match goal with
      | |- _ /\ _ => split
      | |- _ <> _ => discriminate
      | |- [] = [] => reflexivity
      | |- 2 <= 1 -> _ => lia
      | |- _ => solve [auto]
      end. repeat constructor; cbn -[rank]. rewrite rank_task by (apply C; now left). cbn. lia.
    - assert (T: ~ In t rel) by (apply C; now left). assert (Q: ~ In p rel) by (apply C; right; now left).
      destruct v; cbn -[rank]; repeat match goal with
      | |- _ /\ _ => split
      | |- _ <> _ => discriminate
      | |- [] = [] => reflexivity
      | |- [] = [] \/ _ => now left
      | |- 2 <= 1 -> _ => lia
      | |- below _ _ => repeat constructor; cbn -[rank]; rewrite ?rank_task by auto; try (cbn; lia)
      end.
    - assert (T: ~ In t rel) by (apply C; now left). assert (Q: ~ In p rel) by (apply C; right; now left).
      assert (X: forall n, release = Some n -> rank (RTask n) = 2%Z)
        by (intros n ->; apply rank_rel, R; now left).
      destruct release as [n|], v; cbn -[rank]; repeat match goal with
      | |- _ /\ _ => split
      | |- _ <> _ => discriminate
      | |- [] = [] => reflexivity
      | |- [] = [] \/ _ => now left
      | |- 2 <= 1 -> _ => lia
      | |- 2 <= 2 -> _ => intros _; now apply X
      | |- _ \/ _ => right; eexists; split; [reflexivity|]
      | |- below _ _ => repeat constructor; cbn -[rank]; rewrite ?(X _ eq_refl), ?rank_task by auto; try (cbn; lia)
      end.
  Qed.
End Rank.

(** *** Where a process can be within its call *)

Definition run (is : list instr) (st : list session) : list session := fold_left (fun x i => effect i x) is st.

(** A process is at some point of the script of its call, with what the instructions before it have opened. *)
Definition placed (p : proc) : Prop :=
  (todo p = [] /\ open_ p = []) \/ exists pre, script (cur p) = pre ++ todo p /\ open_ p = run pre [].

Lemma wf_run depth rel pre : forall st k, wf depth rel st (pre ++ k) -> wf depth rel (run pre st) k.
Proof.
  induction pre as [|i pre IH]; intros st k H; [exact H|].
  apply IH. destruct i; cbn in H |- *; tauto.
Qed.

Lemma scripts_end c : run (script c) [] = [].
Proof.
  destruct c as [|t|j|n|s|j|t|[s|]|t j|t p j v|t p j [n|] v]; try reflexivity; destruct v; reflexivity.
Qed.

Lemma scripts_nonempty c : script c <> [].
Proof. destruct c as [|t|j|n|s|j|t|[s|]|t j|t p j v|t p j [n|] v]; discriminate. Qed.

Lemma placed_start cs : placed (start cs).
Proof. now left. Qed.

Lemma placed_open p : placed p -> todo p = [] -> open_ p = [].
Proof.
  intros [[_ H]|(pre & E & O)] T; [exact H|]. rewrite T, app_nil_r in E. rewrite O, <- E. apply scripts_end.
Qed.

Lemma placed_advance p : placed p -> placed (advance p).
Proof.
  intros H. unfold advance. destruct (todo p) as [|i k] eqn:T.
  - destruct (later p) as [|c l] eqn:L; [exact H|]. right. exists []. cbn.
    rewrite (placed_open H T). auto.
  - destruct H as [[H _]|(pre & E & O)]; [congruence|].
    right. exists (pre ++ [i]). cbn. rewrite <- app_assoc. cbn. rewrite E, T. split; [reflexivity|].
    unfold run. rewrite fold_left_app. cbn. fold (run pre []). now rewrite O.
Qed.

Lemma placed_give_up p k : placed (give_up p k).
Proof. now left. Qed.

Lemma step_forall (Q : proc -> Prop) m s s' : (forall p, Q p -> Q (advance p)) -> (forall p k, Q p -> Q (give_up p k)) ->
  step m s s' -> Forall Q s -> Forall Q s'.
Proof.
  intros A G S F. destruct S as [s1 p s2 _|s1 p s2 k _ _]; apply Forall_app in F as [F1 F2];
    inversion F2; subst; apply Forall_app; split; auto.
Qed.

Lemma steps_placed m n s s' : steps m n s s' -> Forall placed s -> Forall placed s'.
Proof.
  induction 1; auto. intros F. apply IHsteps.
  eapply step_forall; eauto using placed_advance. intros; apply placed_give_up.
Qed.

Lemma start_placed progs : Forall placed (map start progs).
Proof. induction progs; constructor; auto using placed_start. Qed.

(** *** Steps end *)

Definition work (p : proc) : nat := length (todo p) + list_sum (map (fun c => S (length (script c))) (later p)).
Definition total_work (s : pool) : nat := list_sum (map work s).

Lemma sum_cons a l : list_sum (a :: l) = a + list_sum l.
Proof. reflexivity. Qed.

Lemma total_app s1 p s2 : total_work (s1 ++ p :: s2) = total_work s1 + work p + total_work s2.
Proof. unfold total_work. rewrite map_app, list_sum_app. cbn [map]. rewrite sum_cons. lia. Qed.

Lemma skipn_work k l : list_sum (map (fun c => S (length (script c))) (skipn k l))
  <= list_sum (map (fun c => S (length (script c))) l).
Proof.
  revert k. induction l as [|c l IH]; intros [|k]; auto. change (skipn (S k) (c :: l)) with (skipn k l).
  specialize (IH k). cbn [map]. rewrite sum_cons. lia.
Qed.

Lemma step_work m s s' : step m s s' -> total_work s' < total_work s.
Proof.
  intros [s1 p s2 R|s1 p s2 k R T]; rewrite !total_app.
  - enough (work (advance p) < work p) by lia. unfold advance, ready, work in *.
    destruct (todo p) as [|i k] eqn:T.
    + destruct (later p) as [|c l]; [discriminate|]. cbn [todo later map length]. rewrite sum_cons. lia.
    + cbn [todo later length]. lia.
  - enough (work (give_up p k) < work p) by lia. unfold work, give_up. cbn [todo later length].
    destruct (todo p); [easy|]. pose proof (skipn_work k (later p)). cbn [length]. lia.
Qed.

(** *** Somebody can move *)

Lemma ready_step m s1 p s2 : ready m s1 p s2 = true -> exists s', step m (s1 ++ p :: s2) s'.
Proof. intros H. eexists. now apply step_go. Qed.

Lemma row_eqb_eq a b : row_eqb a b = true <-> a = b.
Proof.
  destruct a, b; cbn; try (split; [discriminate|congruence]); rewrite Nat.eqb_eq; split; congruence.
Qed.

(** In a pool where nobody can move, every process with open sessions waits, for a connection or for a row. *)
Definition waits_lock (p : proc) : bool := match todo p with Lock _ _ :: _ => true | _ => false end.
Definition wanted (p : proc) : option row := match todo p with Lock r _ :: _ => Some r | _ => None end.

Section Stuck.
  Variables (m : nat) (depth : id -> nat) (s : pool).
  Hypothesis PL : Forall placed s.
  Hypothesis NS : forall s', ~ step m s s'.
  Hypothesis NE : Forall (nested depth) (in_progress s).
  Hypothesis FR : releases_fresh (in_progress s).

  Let rel := flat_map releases (in_progress s).

  Lemma proc_wf p : In p s -> todo p <> [] -> wf depth rel (open_ p) (todo p).
  Proof.
    intros I T. rewrite Forall_forall in PL. destruct (PL _ I) as [[E _]|(pre & E & O)]; [contradiction|].
    assert (IP: In (cur p) (in_progress s)).
    { unfold in_progress. apply in_flat_map. exists p. split; [exact I|]. destruct (todo p); [easy|now left]. }
    rewrite O. apply wf_run. rewrite <- E. apply script_wf.
    - rewrite Forall_forall in NE. auto.
    - intros t C R. apply (FR _ R). apply in_flat_map. eauto.
    - intros t R. apply in_flat_map. eauto.
  Qed.

  Lemma not_ready s1 p s2 : s = s1 ++ p :: s2 -> ready m s1 p s2 = false.
  Proof.
    intros E. destruct (ready m s1 p s2) eqn:R; [|reflexivity]. exfalso.
    apply ready_step in R as [s' R]. rewrite <- E in R. exact (NS R).
  Qed.

  (** A process waiting for a row: some process holds it. *)
  Lemma blocker p r : In p s -> wanted p = Some r ->
    exists q x e, In q s /\ In x (open_ q) /\ In e x /\ fst e = r.
  Proof.
    intros I W. apply in_split in I as (s1 & s2 & E). pose proof (not_ready _ _ _ E) as R.
    unfold ready, wanted in *. destruct (todo p) as [|[| r' m' |] k]; try discriminate. injection W as ->.
    apply negb_false_iff in R. apply existsb_exists in R as (x & IX & H).
    unfold holds_against in H. apply existsb_exists in H as (e & IE & H). apply andb_true_iff in H as [H _].
    apply row_eqb_eq in H. unfold other_sessions in IX. rewrite !in_app_iff in IX.
    assert (Q: exists q, In q s /\ In x (open_ q)).
    { rewrite E. destruct IX as [IX|[IX|IX]].
      - apply in_flat_map in IX as (q & Q1 & Q2). exists q. split; auto. apply in_app_iff. auto.
      - exists p. split; [apply in_app_iff; right; now left|]. destruct (open_ p); [destruct IX|now right].
      - apply in_flat_map in IX as (q & Q1 & Q2). exists q. split; auto. apply in_app_iff. right. now right. }
    destruct Q as (q & Q1 & Q2). exists q, x, e. auto.
  Qed.

  (** Nobody who can move holds anything. *)
  Lemma holder q x : In q s -> In x (open_ q) -> waits_lock q = true \/ exists k, todo q = Begin :: k.
  Proof.
    intros I X. destruct (todo q) as [|[|r' m'|] k] eqn:T.
    - rewrite Forall_forall in PL. rewrite (placed_open (PL _ I) T) in X. destruct X.
    - right. eauto.
    - left. unfold waits_lock. now rewrite T.
    - exfalso. apply in_split in I as (s1 & s2 & E). pose proof (not_ready _ _ _ E) as R.
      unfold ready in R. rewrite T in R. discriminate.
  Qed.

  Definition waited_rank (p : proc) : Z := match wanted p with Some r => rank depth rel r | None => 0%Z end.

  (** The lock waited for with the highest rank is held by a process that waits for a connection. *)
  Lemma highest l : (exists p, In p l /\ waits_lock p = true) ->
    exists p, In p l /\ waits_lock p = true /\ forall q, In q l -> waits_lock q = true -> (waited_rank q <= waited_rank p)%Z.
  Proof.
    induction l as [|a l IH]; intros (p & I & W); [destruct I|].
    destruct (existsb waits_lock l) eqn:X.
    - apply existsb_exists in X as (b & B1 & B2). destruct IH as (c & C1 & C2 & C3); [eauto|].
      destruct (waits_lock a) eqn:WA.
      + destruct (Z_le_gt_dec (waited_rank a) (waited_rank c)).
        * exists c. split; [now right|]. split; auto. intros q [<-|Q] WQ; auto.
        * exists a. split; [now left|]. split; auto. intros q [<-|Q] WQ; [lia|]. specialize (C3 _ Q WQ). lia.
      + exists c. split; [now right|]. split; auto. intros q [<-|Q] WQ; [congruence|auto].
    - destruct I as [<-|I].
      + exists a. split; [now left|]. split; auto. intros q [<-|Q] WQ; [lia|].
        exfalso. enough (existsb waits_lock l = true) by congruence. apply existsb_exists. eauto.
      + exfalso. enough (existsb waits_lock l = true) by congruence. apply existsb_exists. eauto.
  Qed.

  Lemma waits_wanted p : waits_lock p = true -> exists r m' k, wanted p = Some r /\ todo p = Lock r m' :: k.
  Proof. unfold waits_lock, wanted. destruct (todo p) as [|[|r m'|] k]; try discriminate. eauto. Qed.

  Lemma held_below p r m' k x e : In p s -> todo p = Lock r m' :: k -> In x (open_ p) -> In e x ->
    (rank depth rel (fst e) < rank depth rel r)%Z.
  Proof.
    intros I T X E. assert (W: wf depth rel (open_ p) (todo p)) by (apply proc_wf; auto; congruence).
    rewrite T in W. cbn [wf] in W. destruct W as (_ & B & _). unfold below in B. rewrite Forall_forall in B.
    specialize (B _ X). rewrite Forall_forall in B. auto.
  Qed.

  (** If somebody waits for a row, somebody who has a connection waits for another one. *)
  Lemma conn_waiter : (exists p, In p s /\ waits_lock p = true) ->
    exists q k, In q s /\ todo q = Begin :: k /\ open_ q <> [].
  Proof.
    intros H. destruct (highest _ H) as (p & I & W & M).
    destruct (waits_wanted _ W) as (r & m' & k & WR & T).
    destruct (blocker _ I WR) as (q & x & e & Q & X & E & F).
    destruct (holder _ _ Q X) as [WQ|[k' TQ]].
    - exfalso. destruct (waits_wanted _ WQ) as (r' & m'' & k' & WR' & TQ).
      pose proof (@held_below q r' m'' k' x e Q TQ X E) as L. specialize (M _ Q WQ). unfold waited_rank in M.
      rewrite WR, WR' in M. rewrite F in L. lia.
    - exists q, k'. split; auto. split; auto. intros O. rewrite O in X. destruct X.
  Qed.

  (** A process with two connections waits for a released row; whoever holds that one is not waiting for a connection. *)
  Lemma two_sessions p : In p s -> 2 <= length (open_ p) -> False.
  Proof.
    intros I L.
    assert (WP: waits_lock p = true).
    { assert (N: exists x, In x (open_ p)) by (destruct (open_ p); [cbn in L; lia|eexists; now left]).
      destruct N as [x X]. destruct (holder _ _ I X) as [W|[k T]]; [exact W|]. exfalso.
      assert (W: wf depth rel (open_ p) (todo p)) by (apply proc_wf; auto; congruence).
      rewrite T in W. cbn [wf] in W. destruct W as ([W|(y & W & _)] & _); rewrite W in L; cbn in L; lia. }
    destruct (highest s) as (q & Q & WQ & M); [eauto|].
    assert (RP: waited_rank p = 2%Z).
    { destruct (waits_wanted _ WP) as (r & m' & k & WR & T). unfold waited_rank. rewrite WR.
      assert (W: wf depth rel (open_ p) (todo p)) by (apply proc_wf; auto; congruence).
      rewrite T in W. cbn [wf] in W. tauto. }
    specialize (M _ I WP).
    destruct (waits_wanted _ WQ) as (r & m' & k & WR & T).
    assert (RQ: rank depth rel r = 2%Z).
    { unfold waited_rank in M at 2. rewrite WR in M. pose proof (rank_le depth rel r). lia. }
    destruct (blocker _ Q WR) as (b & x & e & B & X & E & F).
    destruct (holder _ _ B X) as [WB|[k' TB]].
    - destruct (waits_wanted _ WB) as (r' & m'' & k' & WR' & TB).
      pose proof (@held_below b r' m'' k' x e B TB X E) as L'. rewrite F in L'. pose proof (rank_le depth rel r'). lia.
    - assert (W: wf depth rel (open_ b) (todo b)) by (apply proc_wf; auto; congruence).
      rewrite TB in W. cbn [wf] in W. destruct W as ([W|(y & W & U)] & _); [rewrite W in X; destruct X|].
      unfold below in U. rewrite Forall_forall in U. specialize (U _ X). rewrite Forall_forall in U.
      specialize (U _ E). rewrite F in U. lia.
  Qed.

  (** Whoever has a connection is making a call that locks rows. *)
  Lemma holders_lock q x : In q s -> In x (open_ q) -> todo q <> [] /\ locks (cur q) = true.
  Proof.
    intros I X. assert (T: todo q <> []).
    { intros T. pose proof PL as Q. rewrite Forall_forall in Q. rewrite (placed_open (Q _ I) T) in X. destruct X. }
    split; [exact T|].
    pose proof PL as Q. rewrite Forall_forall in Q. destruct (Q _ I) as [[E _]|(pre & E & O)]; [contradiction|].
    destruct (locks (cur q)) eqn:L; [reflexivity|]. exfalso.
    assert (S: script (cur q) = [Begin; End]).
    { destruct (cur q) as [|t|j|n|s0|j|t|[s0|]|t j|t p j v|t p j n v]; try discriminate; reflexivity. }
    rewrite S in E. destruct pre as [|i1 [|i2 [|i3 pre]]]; cbn in E.
    - rewrite O in X. destruct X.
    - injection E as <- E. destruct (holder _ _ I X) as [W|[k TQ]]; [|congruence].
      unfold waits_lock in W. rewrite <- E in W. discriminate.
    - injection E as <- <- E. congruence.
    - discriminate E.
  Qed.

  Lemma used_le : used s <= length (filter locks (in_progress s)).
  Proof.
    assert (G: forall l, incl l s -> list_sum (map (fun p => length (open_ p)) l) <= length (filter locks (in_progress l))).
    { induction l as [|p l IH]; intros I; [cbn; lia|].
      assert (IP: In p s) by (apply I; now left). specialize (IH (fun x h => I x (or_intror h))).
      cbn [map in_progress flat_map]. rewrite filter_app, app_length, sum_cons. fold (in_progress l).
      enough (length (open_ p) <= length (filter locks match todo p with [] => [] | _ => [cur p] end)) by lia.
      destruct (open_ p) as [|x [|y o]] eqn:O.
      - cbn. lia.
      - destruct (holders_lock p x IP) as [T L]; [rewrite O; now left|]. destruct (todo p); [easy|]. cbn. rewrite L. cbn. lia.
      - exfalso. apply (two_sessions p IP). rewrite O. cbn. lia. }
    apply G, incl_refl.
  Qed.
End Stuck.

(** ** Theorems *)

(** C82.  Take any handlers, each making any calls, at any moment of any interleaving.  If children are deeper than
    their parents, no completion is being handled of a task that is only now being released, and the pool is unlimited
    or larger than the number of calls in progress that lock rows, then somebody can go on, unless all have finished. *)
Theorem C82_never_stuck : forall max_open depth progs s,
  reach max_open progs s ->
  Forall (nested depth) (in_progress s) ->
  releases_fresh (in_progress s) ->
  max_open = 0 \/ length (filter locks (in_progress s)) < max_open ->
  ~ stuck max_open s.
Proof.
  intros m depth progs s [n R] NE FR CAP [ND NS].
  assert (PL: Forall placed s) by (eapply steps_placed; eauto using start_placed).
  assert (FREE: free_conn m s = true).
  { unfold free_conn. destruct m as [|m']; [reflexivity|]. apply Nat.ltb_lt.
    pose proof (used_le PL NS NE FR). destruct CAP; lia. }
  assert (NB: forall p k, In p s -> todo p = Begin :: k -> False).
  { intros p k I T. apply in_split in I as (s1 & s2 & E). pose proof (not_ready NS _ _ _ E) as Q.
    unfold ready in Q. rewrite T, <- E, FREE in Q. discriminate. }
  apply ND. apply Forall_forall. intros p I.
  assert (T: todo p = []).
  { destruct (todo p) as [|[|r m'|] k] eqn:T; [reflexivity|..]; exfalso.
    - eauto.
    - destruct (conn_waiter PL NS NE FR) as (q & k' & Q & TQ & _); [|eauto].
      exists p. split; auto. unfold waits_lock. now rewrite T.
    - apply in_split in I as (s1 & s2 & E). pose proof (not_ready NS _ _ _ E) as Q.
      unfold ready in Q. rewrite T in Q. discriminate. }
  split; [exact T|]. destruct (later p) eqn:L; [reflexivity|]. exfalso.
  apply in_split in I as (s1 & s2 & E). pose proof (not_ready NS _ _ _ E) as Q.
  unfold ready in Q. rewrite T, L in Q. discriminate.
Qed.

Lemma steps_app m a b s s' s'' : steps m a s s' -> steps m b s' s'' -> steps m (a + b) s s''.
Proof. induction 1; cbn; auto. intros. econstructor; eauto. Qed.

Lemma steps_work m n s s' : steps m n s s' -> n + total_work s' <= total_work s.
Proof. induction 1; [lia|]. apply step_work in H. lia. Qed.

(** C82.  With as many connections as there are handlers plus one, every call returns, whatever the order: no execution
    goes on for ever, and one that cannot go on has made all its calls. *)
Theorem C82_all_finish : forall max_open depth progs,
  (forall cs, In cs progs -> Forall (nested depth) cs) ->
  (forall s, reach max_open progs s -> releases_fresh (in_progress s)) ->
  max_open = 0 \/ length progs < max_open ->
  exists bound, forall n s, steps max_open n (map start progs) s ->
    n <= bound /\ ((forall s', ~ step max_open s s') -> all_done s).
Proof.
  intros m depth progs NE FR CAP. exists (total_work (map start progs)). intros n s R. split.
  - apply steps_work in R. lia.
  - intros NS.
    assert (A: forall n s0 s', steps m n s0 s' -> Forall (fun p => (todo p <> [] -> nested depth (cur p)) /\ Forall (nested depth) (later p)) s0 ->
      length s' = length s0 /\ Forall (fun p => (todo p <> [] -> nested depth (cur p)) /\ Forall (nested depth) (later p)) s').
    { clear. induction 1; [auto|]. intros F.
      assert (L: length s' = length s) by (destruct H; rewrite !app_length; reflexivity).
      destruct IHsteps as [L' F']; [|split; [congruence|exact F']].
      eapply step_forall; [..|exact H|exact F].
      - intros p (Q & Q'). unfold advance. destruct (todo p) as [|i k] eqn:T.
        + destruct (later p) as [|c l] eqn:E; [rewrite T, E; split; [easy|constructor]|]. inversion Q'; subst. now split.
        + cbn. split; auto. intros _. apply Q. congruence.
      - intros p k (_ & Q). cbn. split; [easy|]. revert Q. clear. revert k. generalize (later p) as l.
        induction l; intros [|k] Q; cbn; auto. inversion Q; subst. auto. }
    destruct (A _ _ _ R) as [L F].
    { apply Forall_forall. intros p I. apply in_map_iff in I as (cs & <- & I). cbn. split; [easy|]. auto. }
    assert (NEST: Forall (nested depth) (in_progress s)).
    { apply Forall_forall. intros c I. unfold in_progress in I. apply in_flat_map in I as (p & I & C).
      rewrite Forall_forall in F. destruct (F _ I) as [Q _]. destruct (todo p); [destruct C|].
      destruct C as [<-|[]]. now apply Q. }
    assert (CNT: length (filter locks (in_progress s)) <= length s).
    { clear. induction s as [|p s IH]; [cbn; lia|]. unfold in_progress in *. cbn [flat_map length].
      rewrite filter_app, app_length. destruct (todo p); cbn; [lia|]. destruct (locks (cur p)); cbn; lia. }
    assert (D: all_done s \/ ~ all_done s).
    { clear. unfold all_done. induction s as [|p s [IH|IH]].
      - left. constructor.
      - destruct (todo p) eqn:T; [destruct (later p) eqn:E|]; [left; now constructor|..];
          right; intros X; inversion X; subst; destruct H1; congruence.
      - right. intros X. inversion X; auto. }
    destruct D as [D|D]; [exact D|]. exfalso.
    eapply C82_never_stuck; [exists n; exact R|exact NEST|apply FR; exists n; exact R| |exact (conj D NS)].
    rewrite L, map_length in CNT. destruct CAP; [now left|right; lia].
Qed.

(** Connections in use never exceed the setting. *)
Lemma used_app s1 p s2 : used (s1 ++ p :: s2) = used s1 + length (open_ p) + used s2.
Proof. unfold used. rewrite map_app, list_sum_app. cbn [map]. rewrite sum_cons. lia. Qed.

Lemma lock_in_length e st : length (lock_in e st) = length st.
Proof. now destruct st. Qed.

Lemma step_used m s s' : step m s s' -> 0 < m -> used s <= m -> used s' <= m.
Proof.
  intros H P U. destruct H as [s1 p s2 R|s1 p s2 k R _]; rewrite used_app in *; [|cbn; lia].
  unfold advance, ready in *. destruct (todo p) as [|[|r x|] k].
  - destruct (later p); cbn [open_]; lia.
  - cbn [open_ effect length]. unfold free_conn in R. destruct m; [lia|]. apply Nat.ltb_lt in R. rewrite used_app in R. lia.
  - cbn [open_ effect]. rewrite lock_in_length. lia.
  - cbn [open_ effect]. destruct (open_ p); cbn [tl length] in *; lia.
Qed.

Lemma start_used progs : used (map start progs) = 0.
Proof. unfold used. rewrite map_map. cbn. induction progs; auto. Qed.

Lemma reach_used m n s s' : steps m n s s' -> 0 < m -> used s <= m -> used s' <= m.
Proof. induction 1; auto. intros. apply IHsteps; eauto using step_used. Qed.

Theorem C82_within_limit : forall max_open progs s,
  0 < max_open -> reach max_open progs s -> used s <= max_open.
Proof. intros m progs s P [n R]. eapply reach_used; eauto. rewrite start_used. lia. Qed.

(** *** Rows are held by one writer at a time *)

(** The rows a call changes, in the transaction it commits last. *)
Definition writes (c : call) : list row :=
  match c with
  | CUpdateTask t => [RTask t]
  | CUpdateJob j => [RJob j]
  | CUpdateNode n => [RNode n]
  | CUpdateSched s => [RSched s]
  | CCompleteTop t j => [RTask t; RJob j]
  | CCompleteParallel t p j v | CCompleteEach t p j _ v => RTask t :: RTask p :: (if v then [RJob j] else [])
  | CRead | CCreateTask _ | CCreateLogPart _ | CCreateJob _ => []
  end.

(** The calls that only insert rows or read. *)
Definition inserts (c : call) : bool :=
  match c with CRead | CCreateTask _ | CCreateLogPart _ | CCreateJob _ => true | _ => false end.

(** No two sessions have locks on the same row unless both are share locks. *)
Definition compatible (x y : session) : Prop :=
  forall r m m', In (r, m) x -> In (r, m') y -> m = Share /\ m' = Share.
Definition apart (l : list session) : Prop :=
  forall l1 x l2 y l3, l = l1 ++ x :: l2 ++ y :: l3 -> compatible x y.

Lemma compatible_sym x y : compatible x y -> compatible y x.
Proof. intros H r m m' A B. destruct (H r m' m B A). auto. Qed.

Lemma apart_pairs l : apart l <-> ForallOrdPairs compatible l.
Proof.
  split.
  - induction l as [|x l IH]; intros H; constructor.
    + apply Forall_forall. intros y I. apply in_split in I as (a & b & ->). apply (H [] x a y b). reflexivity.
    + apply IH. intros l1 a l2 b l3 ->. apply (H (x :: l1) a l2 b l3). reflexivity.
  - intros H l1. revert l H. induction l1 as [|a l1 IH]; intros l H x l2 y l3 ->; cbn in H; inversion H; subst.
    + rewrite Forall_forall in H2. apply H2. apply in_or_app. right. now left.
    + eapply IH; eauto.
Qed.

Lemma pairs_app (l1 l2 : list session) : ForallOrdPairs compatible (l1 ++ l2) <->
  ForallOrdPairs compatible l1 /\ ForallOrdPairs compatible l2 /\ (forall x y, In x l1 -> In y l2 -> compatible x y).
Proof.
  induction l1 as [|a l1 IH]; cbn [app].
  - split; [intros H; split; [constructor|split; [exact H|intros ? ? []]]|tauto].
  - split.
    + intros H. inversion H as [|? ? F P]; subst. apply IH in P as (P1 & P2 & P3). apply Forall_app in F as [F1 F2].
      split; [constructor; auto|]. split; [exact P2|]. intros x y [<-|I] J; [|auto]. rewrite Forall_forall in F2. auto.
    + intros (H1 & H2 & H3). inversion H1 as [|? ? F P]; subst. constructor.
      * apply Forall_app. split; auto. apply Forall_forall. intros y J. apply H3; cbn; auto.
      * apply IH. split; [|split]; auto. intros. apply H3; cbn; auto.
Qed.

Lemma sessions_app s1 p s2 : flat_map open_ (s1 ++ p :: s2) = flat_map open_ s1 ++ open_ p ++ flat_map open_ s2.
Proof. now rewrite flat_map_app. Qed.

Lemma conflict_share a b : conflict a b = false -> a = Share /\ b = Share.
Proof. destruct a, b; cbn; auto; discriminate. Qed.

Lemma held_ok r m x : holds_against r m x = false -> forall m', In (r, m') x -> m' = Share /\ m = Share.
Proof.
  unfold holds_against. intros H m' I.
  assert (E: row_eqb r r && conflict m' m = false).
  { destruct (row_eqb r r && conflict m' m) eqn:E; auto. assert (X: existsb (fun e => row_eqb (fst e) r && conflict (snd e) m) x = true)
      by (apply existsb_exists; exists (r, m'); auto). congruence. }
  assert (R: row_eqb r r = true) by now apply row_eqb_eq. rewrite R in E. now apply conflict_share.
Qed.

Lemma no_block r m l : existsb (holds_against r m) l = false -> forall x, In x l -> holds_against r m x = false.
Proof.
  intros H x I. destruct (holds_against r m x) eqn:E; auto.
  assert (X: existsb (holds_against r m) l = true) by (apply existsb_exists; eauto). congruence.
Qed.

Lemma pairs_replace (l1 a b l2 : list session) : ForallOrdPairs compatible (l1 ++ a ++ l2) -> ForallOrdPairs compatible b ->
  (forall x, In x b -> In x a \/ (forall y, In y (l1 ++ l2) -> compatible x y)) -> ForallOrdPairs compatible (l1 ++ b ++ l2).
Proof.
  intros H B C. apply pairs_app in H as (H1 & H2 & H3). apply pairs_app in H2 as (H2 & H4 & H5).
  apply pairs_app. split; [|split]; auto.
  - apply pairs_app. split; [|split]; auto. intros x y I J. destruct (C x I) as [K|K]; auto. apply K, in_or_app. auto.
  - intros x y I J. apply in_app_or in J as [J|J]; [|apply H3; auto; apply in_or_app; auto].
    destruct (C y J) as [K|K]; [apply H3; auto; apply in_or_app; auto|]. apply compatible_sym, K, in_or_app. auto.
Qed.

Lemma pairs_tl (l : list session) : ForallOrdPairs compatible l -> ForallOrdPairs compatible (tl l).
Proof. intros H. destruct H; cbn; auto; constructor. Qed.

Lemma empty_compatible y : compatible [] y.
Proof. intros r m m' []. Qed.

Lemma step_apart m s s' : step m s s' -> ForallOrdPairs compatible (flat_map open_ s) -> ForallOrdPairs compatible (flat_map open_ s').
Proof.
  intros H A. destruct H as [s1 p s2 R|s1 p s2 k R _]; rewrite sessions_app in *.
  - assert (AP: ForallOrdPairs compatible (open_ p)) by (apply pairs_app in A as (_ & A & _); now apply pairs_app in A as (A & _)).
    unfold advance, ready in *. destruct (todo p) as [|[|r x|] k] eqn:T.
    + destruct (later p); exact A.
    + cbn [open_ effect]. eapply pairs_replace; [exact A| |].
      * constructor; auto. apply Forall_forall. intros y _. apply empty_compatible.
      * intros z [<-|I]; [right; intros; apply empty_compatible|auto].
    + cbn [open_ effect]. apply negb_true_iff in R.
      destruct (open_ p) as [|z st] eqn:O; [exact A|]. cbn [lock_in]. rewrite <- O in A.
      assert (K: forall y, In y (flat_map open_ s1 ++ st ++ flat_map open_ s2) -> compatible z y -> compatible ((r, x) :: z) y).
      { intros y I C q m1 m2 [E|J1] J2; [|eapply C; eauto]. injection E as <- <-.
        assert (N: holds_against r x y = false) by (apply (no_block _ _ _ R); unfold other_sessions; rewrite O; exact I).
        destruct (held_ok _ _ _ N _ J2). auto. }
      rewrite O in A. inversion AP as [|? ? FZ PZ]; subst. rewrite Forall_forall in FZ.
      eapply pairs_replace; [exact A| |].
      * constructor; auto. apply Forall_forall. intros y I. apply K; [|auto]. apply in_or_app. right. apply in_or_app. auto.
      * intros y [<-|I]; [|left; now right]. right. intros y J. apply K.
        { apply in_app_or in J as [J|J]; apply in_or_app; [auto|right; apply in_or_app; auto]. }
        apply pairs_app in A as (_ & A2 & A3). apply in_app_or in J as [J|J].
        { apply compatible_sym, A3; auto. now left. }
        { apply pairs_app in A2 as (_ & _ & A2). apply A2; auto. now left. }
    + cbn [open_ effect]. eapply pairs_replace; [exact A|now apply pairs_tl|].
      intros z I. left. destruct (open_ p); [destruct I|now right].
  - cbn [give_up open_]. eapply pairs_replace; [exact A|constructor|]. intros ? [].
Qed.

Lemma start_sessions progs : flat_map open_ (map start progs) = [].
Proof. induction progs; auto. Qed.

Lemma reach_apart m progs s : reach m progs s -> ForallOrdPairs compatible (flat_map open_ s).
Proof.
  intros [n H]. assert (X: ForallOrdPairs compatible (flat_map open_ (map start progs))) by (rewrite start_sessions; constructor).
  revert X. induction H; auto. intros. apply IHsteps. eapply step_apart; eauto.
Qed.

(** C82: however the handlers interleave, two sessions that both have a lock on one row both have a share lock. *)
Theorem C82_locks_exclude : forall max_open progs s l1 x l2 y l3 r m m',
  reach max_open progs s -> flat_map open_ s = l1 ++ x :: l2 ++ y :: l3 ->
  In (r, m) x -> In (r, m') y -> m = Share /\ m' = Share.
Proof.
  intros mo progs s l1 x l2 y l3 r m m' R E I J. apply reach_apart in R. apply apart_pairs in R.
  exact (R l1 x l2 y l3 E r m m' I J).
Qed.

Lemma last_writes c pre : script c = pre ++ [End] -> forall r, In r (writes c) ->
  exists x, run pre [] = [x] /\ In (r, Excl) x.
Proof.
  intros E r I.
  assert (P: pre = removelast (script c)) by (rewrite E; symmetry; apply removelast_last).
  subst pre. clear E. destruct c as [|t|j|n|s|j|t|[s|]|t j|t p j v|t p j [n|] v]; try destruct v; cbn in I |- *;
    try contradiction; (eexists; split; [reflexivity|]);
    repeat (destruct I as [<-|I]; [cbn; auto 10|]); contradiction I.
Qed.

(** C82: two handlers are never both about to commit a change of the same row. *)
Theorem C82_one_writer : forall max_open progs s s1 p s2 q s3 r,
  reach max_open progs s -> s = s1 ++ p :: s2 ++ q :: s3 ->
  todo p = [End] -> todo q = [End] -> In r (writes (cur p)) -> In r (writes (cur q)) -> False.
Proof.
  intros m progs s s1 p s2 q s3 r R E TP TQ WP WQ.
  assert (PL: Forall placed s) by (destruct R as [n R]; eapply steps_placed; eauto using start_placed).
  subst s. apply Forall_app in PL as [_ PL]. inversion PL as [|? ? PP PL']; subst. apply Forall_app in PL' as [_ PL'].
  inversion PL' as [|? ? PQ _]; subst.
  assert (H: forall p, placed p -> todo p = [End] -> In r (writes (cur p)) -> exists x, open_ p = [x] /\ In (r, Excl) x).
  { intros p0 P T W. destruct P as [[P _]|(pre & S & O)]; [congruence|]. rewrite T in S. rewrite O. now apply last_writes with (cur p0). }
  destruct (H p PP TP WP) as (x & OX & IX). destruct (H q PQ TQ WQ) as (y & OY & IY).
  assert (F: flat_map open_ (s1 ++ p :: s2 ++ q :: s3)
             = flat_map open_ s1 ++ x :: flat_map open_ s2 ++ y :: flat_map open_ s3).
  { rewrite flat_map_app. cbn. rewrite flat_map_app. cbn. now rewrite OX, OY. }
  destruct (@C82_locks_exclude _ _ _ _ _ _ _ _ _ _ _ R F IX IY). discriminate.
Qed.

(** C82: handlers that only insert (tasks, log parts, jobs) or read never wait for each other's rows. *)
Definition only_share (p : proc) : Prop :=
  Forall (fun i => forall r m, i = Lock r m -> m = Share) (todo p) /\
  Forall (Forall (fun e : row * mode => snd e = Share)) (open_ p) /\ Forall (fun c => inserts c = true) (later p).

Lemma inserts_share c : inserts c = true -> Forall (fun i => forall r m, i = Lock r m -> m = Share) (script c).
Proof.
  intros I. destruct c as [|t|j|n|x|j|t|[x|]|t j|t q j v|t q j [n|] v]; try discriminate I; cbn;
    repeat constructor; intros ? ? EQ; congruence.
Qed.

Lemma only_share_advance p : only_share p -> only_share (advance p).
Proof.
  intros (A & B & C). unfold advance. destruct (todo p) as [|i k] eqn:T.
  - destruct (later p) as [|c l] eqn:L; [unfold only_share; rewrite T, L; auto|].
    inversion C; subst. repeat split; cbn; auto. now apply inserts_share.
  - inversion A as [|? ? A1 A2]; subst. split; [exact A2|]. split; [|exact C]. cbn [open_ effect].
    destruct i as [|r m|]; cbn [effect]; [constructor; auto| |destruct B; cbn; auto].
    destruct B as [|z st BZ BS]; cbn [lock_in]; constructor; auto. constructor; auto. now apply (A1 r m).
Qed.

Lemma only_share_give_up p k : only_share p -> only_share (give_up p k).
Proof.
  intros (A & B & C). repeat split; cbn; auto. clear -C. revert k. induction C; intros [|k]; cbn; auto.
Qed.

Theorem C82_inserts_do_not_wait : forall progs s s1 p s2,
  Forall (Forall (fun c => inserts c = true)) progs -> reach 0 progs s -> s = s1 ++ p :: s2 ->
  todo p <> [] -> ready 0 s1 p s2 = true.
Proof.
  intros progs s s1 p s2 INS [n R] E T.
  assert (F: Forall only_share s).
  { assert (Z: Forall only_share (map start progs)).
    { clear - INS. induction INS; constructor; auto. repeat split; cbn; auto. }
    revert Z. clear E. induction R; auto. intros Z. apply IHR; auto.
    eapply step_forall; eauto using only_share_advance, only_share_give_up. }
  subst s. assert (X: Forall (Forall (fun e : row * mode => snd e = Share)) (flat_map open_ s1 ++ open_ p ++ flat_map open_ s2)).
  { rewrite <- sessions_app. clear -F. induction F as [|q l (_ & B & _) _ IH]; cbn; auto. apply Forall_app; auto. }
  apply Forall_app in F as [_ F]. inversion F as [|? ? (A & _) _]; subst.
  unfold ready. destruct (todo p) as [|[|r m|] k]; [congruence|reflexivity| |reflexivity].
  inversion A as [|? ? A1 _]; subst. specialize (A1 r m eq_refl). subst m.
  apply negb_true_iff. apply not_true_iff_false. intros H. apply existsb_exists in H as (x & I & H).
  assert (SX: Forall (fun e : row * mode => snd e = Share) x).
  { rewrite Forall_forall in X. apply X. unfold other_sessions in I. apply in_app_or in I as [I|I]; [apply in_or_app; auto|].
    apply in_or_app; right. apply in_or_app. apply in_app_or in I as [I|I]; auto. left. destruct (open_ p); [destruct I|now right]. }
  apply existsb_exists in H as ([r' m'] & J & H). rewrite Forall_forall in SX. specialize (SX _ J). cbn in SX, H. subst m'.
  apply andb_true_iff in H as [_ H]. discriminate H.
Qed.

(** The calls that take a second connection while keeping one. *)
Definition takes_two (c : call) : bool :=
  match c with CUpdateJob _ | CUpdateSched _ | CCompleteEach _ _ _ (Some _) _ => true | _ => false end.

(** C82, negative.  With one connection ([datastore.postgres.max_open_conns: 1]) a call that takes two never returns: no
    job's state is ever updated outside a completion, whatever the number of handlers and their calls. *)
Theorem C82_single_connection_refuted : forall progs s p c,
  reach 1 progs s -> In p s -> In c (okay p) -> takes_two c = false.
Proof.
  intros progs s p c [n R].
  pose (narrow := fun is => forall a b, is = a ++ b -> length (run a []) <= 1).
  pose (Q := fun p => Forall (fun c => narrow (script c)) (okay p) /\
    (todo p = [] /\ open_ p = [] \/ exists pre, script (cur p) = pre ++ todo p /\ open_ p = run pre [] /\ narrow pre)).
  assert (A: forall n s s', steps 1 n s s' -> used s <= 1 -> Forall Q s -> Forall Q s').
  { clear - Q. induction 1; auto. intros U F.
    assert (U': used s' <= 1) by (eapply step_used; eauto).
    apply IHsteps; auto. clear IHsteps H0.
    destruct H as [s1 p s2 R|s1 p s2 k R T]; apply Forall_app in F as [F1 F2]; inversion F2 as [|? ? FP F3]; subst;
      apply Forall_app; split; auto; constructor; auto.
    - rewrite used_app in U'. assert (L: length (open_ (advance p)) <= 1) by lia. clear - FP L. destruct FP as [O PL].
      unfold Q, advance in *. destruct (todo p) as [|i k] eqn:T.
      + destruct (later p) as [|c l]; [rewrite T; auto|]. cbn [okay todo open_ cur] in *. split; auto. right.
        exists []. split; auto. split.
        * destruct PL as [[_ PL]|(pre & E & PL & _)]; [exact PL|]. rewrite app_nil_r in E. rewrite PL, <- E. apply scripts_end.
        * intros a b E. destruct a; [cbn; lia|discriminate].
      + destruct PL as [[E _]|(pre & E & PL & N)]; [discriminate|]. cbn [okay todo open_ cur] in *.
        assert (E': script (cur p) = (pre ++ [i]) ++ k) by (rewrite <- app_assoc; exact E).
        assert (O': effect i (open_ p) = run (pre ++ [i]) []).
        { unfold run. rewrite fold_left_app. cbn. fold (run pre []). now rewrite PL. }
        assert (N': narrow (pre ++ [i])).
        { intros a b X. destruct b as [|y b] using rev_ind.
          - rewrite app_nil_r in X. subst a. rewrite <- O'. exact L.
          - rewrite app_assoc in X. apply app_inj_tail in X as [X _]. eapply N; eauto. }
        split.
        * destruct k as [|y k]; auto. constructor; auto. rewrite E', app_nil_r. exact N'.
        * right. exists (pre ++ [i]). auto.
    - destruct FP as [O _]. split; auto. }
  intros I C.
  assert (F: Forall Q s).
  { eapply A; eauto. rewrite start_used. lia. apply Forall_forall. intros q J. apply in_map_iff in J as (cs & <- & _).
    split; cbn; auto. }
  rewrite Forall_forall in F. destruct (F _ I) as [O _]. rewrite Forall_forall in O. specialize (O _ C).
  destruct c as [|t|j|x|x|j|t|x|t j|t q j v|t q j [x|] v]; try reflexivity; exfalso.
  - specialize (O [Begin; Lock (RJob j) Excl; Begin] [End; End] eq_refl). cbn in O. lia.
  - specialize (O [Begin; Lock (RSched x) Excl; Begin] [End; End] eq_refl). cbn in O. lia.
  - specialize (O [Begin; Lock (RTask t) Excl; Lock (RTask q) Excl; Begin]).
    cbn [script complete_each with_tx update_task stmt app] in O. specialize (O _ eq_refl). cbn in O. lia.
Qed.

(** C82, negative, general: the bound in [C82_never_stuck] cannot be improved.  For every size of the pool, that many
    handlers, each updating the state of a job of its own, can all end up waiting for each other, for ever. *)
Definition waiting_job (i : nat) : proc :=
  P [[(RJob i, Excl)]] [Begin; End; End] (CUpdateJob i) [] [].

Lemma used_waiting l : used (map waiting_job l) = length l.
Proof. unfold used. induction l as [|a l IH]; [reflexivity|]. cbn [map length]. rewrite sum_cons, IH. reflexivity. Qed.

Lemma pool_fill n k : k <= n ->
  exists x, steps n x (map start (map (fun i => [CUpdateJob i]) (seq 0 n)))
    (map waiting_job (seq 0 k) ++ map start (map (fun i => [CUpdateJob i]) (seq k (n - k)))).
Proof.
  induction k as [|k IH]; intros L.
  - exists 0. rewrite Nat.sub_0_r. constructor.
  - destruct IH as [x IH]; [lia|]. exists (x + 3). eapply steps_app; [exact IH|].
    replace (n - k) with (S (n - S k)) by lia.
    change (seq k (S (n - S k))) with (k :: seq (S k) (n - S k)). rewrite seq_S, Nat.add_0_l, map_app, <- app_assoc.
    cbn [map app].
    set (rest := map start (map (fun i => [CUpdateJob i]) (seq (S k) (n - S k)))).
    assert (U: used (map waiting_job (seq 0 k)) = k).
    { now rewrite used_waiting, seq_length. }
    assert (UR: used rest = 0) by (subst rest; apply start_used).
    assert (OR: flat_map open_ rest = []).
    { subst rest. clear. generalize (seq (S k) (n - S k)). induction l; auto. }
    econstructor; [apply step_go; reflexivity|]. cbn [advance start todo later open_ okay].
    econstructor; [apply step_go|].
    { unfold ready. cbn [todo script update_job with_tx]. unfold free_conn. destruct n; [lia|]. apply Nat.ltb_lt.
      rewrite used_app, U, UR. cbn. lia. }
    cbn -[flat_map Nat.sub seq].
    econstructor; [apply step_go|].
    { unfold ready. cbn [todo]. apply negb_true_iff. unfold other_sessions. rewrite OR. cbn [open_ tl lock_in].
      rewrite ?app_nil_r. destruct (existsb _ _) eqn:X; [|reflexivity]. exfalso.
      apply existsb_exists in X as (y & Y & X). apply in_flat_map in Y as (q & Y & Z).
      apply in_map_iff in Y as (i & <- & Y). cbn in Z. destruct Z as [<-|[]]. cbn in X.
      apply in_seq in Y. rewrite orb_false_r, andb_true_r in X. apply Nat.eqb_eq in X. lia. }
    cbn -[flat_map Nat.sub seq]. constructor.
Qed.

Theorem C82_pool_exhausted_refuted : forall n, 0 < n ->
  exists progs s, length progs = n /\ reach n progs s /\ stuck n s /\
    releases_fresh (in_progress s) /\ (forall depth, Forall (nested depth) (in_progress s)) /\
    length (filter locks (in_progress s)) = n /\ Forall (fun p => okay p = []) s.
Proof.
  intros n P. exists (map (fun i => [CUpdateJob i]) (seq 0 n)), (map waiting_job (seq 0 n)).
  assert (IP: forall k a, in_progress (map waiting_job (seq a k)) = map CUpdateJob (seq a k)).
  { induction k; intros a; [reflexivity|]. unfold in_progress in *. cbn. now rewrite IHk. }
  split; [now rewrite map_length, seq_length|]. split.
  - destruct (@pool_fill n n (Nat.le_refl n)) as [x H]. exists x. rewrite Nat.sub_diag, app_nil_r in H. exact H.
  - split; [|split; [|split; [|split]]].
    + split.
      * intros D. destruct n; [lia|]. inversion D as [|? ? X]. destruct X. discriminate.
      * intros s' H.
        assert (W: forall q, In q (map waiting_job (seq 0 n)) -> exists k, todo q = Begin :: k).
        { intros q Q. apply in_map_iff in Q as (i & <- & _). eexists. reflexivity. }
        assert (U: used (map waiting_job (seq 0 n)) = n).
        { now rewrite used_waiting, seq_length. }
        remember (map waiting_job (seq 0 n)) as s eqn:E.
        destruct H as [s1 p s2 R|s1 p s2 k R _]; (destruct (W p) as [k0 T]; [apply in_app_iff; right; now left|]);
          unfold ready in R; rewrite T in R; unfold free_conn in R; (destruct n; [lia|]);
          apply Nat.ltb_lt in R; rewrite U in R; lia.
    + rewrite IP. intros x X. exfalso. apply in_flat_map in X as (c & X & Y). apply in_map_iff in X as (i & <- & _). destruct Y.
    + intros depth. rewrite IP. apply Forall_forall. intros c X. apply in_map_iff in X as (i & <- & _). exact I.
    + rewrite IP. clear. generalize 0. induction n; intros; cbn; auto.
    + apply Forall_forall. intros q Q. apply in_map_iff in Q as (i & <- & _). reflexivity.
Qed.

(** *** Examples *)

(** A scheduler: handler number [i] goes next. *)
Fixpoint drive (max_open : nat) (sched : list nat) (s : pool) : option pool :=
  match sched with
  | [] => Some s
  | i :: k =>
      match skipn i s with
      | p :: s2 => if ready max_open (firstn i s) p s2 then drive max_open k (firstn i s ++ advance p :: s2) else None
      | [] => None
      end
  end.

Lemma drive_steps m sched : forall s s', drive m sched s = Some s' -> exists n, steps m n s s'.
Proof.
  induction sched as [|i k IH]; cbn [drive]; intros s s' H.
  - injection H as <-. exists 0. constructor.
  - destruct (skipn i s) as [|p s2] eqn:E; [discriminate|].
    destruct (ready m (firstn i s) p s2) eqn:R; [|discriminate].
    apply IH in H as [n H]. exists (S n). econstructor; [|exact H].
    rewrite <- (firstn_skipn i s) at 1. rewrite E. now apply step_go.
Qed.

(** Three handlers on four connections: one completes child 1 of task 0 and releases child 2, one updates the job, one
    stores a log line of child 2. *)
Definition ex_progs : list (list call) :=
  [[CCompleteEach 1 0 9 (Some 2) true]; [CUpdateJob 9; CRead]; [CCreateLogPart 2; CCompleteTop 7 9]].
Definition ex_depth (t : id) : nat := match t with 1 | 2 => 1 | _ => 0 end.

Example C82_nonvacuous : exists s,
  reach 4 ex_progs s /\ used s = 4 /\
  Forall (nested ex_depth) (in_progress s) /\ releases_fresh (in_progress s) /\
  length (filter locks (in_progress s)) < 4 /\ ~ all_done s.
Proof.
  destruct (drive 4 [0;0;0;0; 0;0; 0; 1;1;1; 2;2] (map start ex_progs)) as [s|] eqn:E; [|vm_compute in E; discriminate].
  exists s. split; [exact (drive_steps _ _ _ E)|]. vm_compute in E. injection E as <-.
  split; [reflexivity|]. split; [repeat constructor|]. split.
  - intros n H X. vm_compute in H, X. destruct H as [<-|[]]. repeat (destruct X as [X|X]; [discriminate X|]). exact X.
  - split; [vm_compute; lia|]. intros D. inversion D as [|? ? X]. destruct X. discriminate.
Qed.

(** The same handlers on two connections can block each other: two locks rows wait for a third connection. *)
Example C82_two_connections_stuck : exists s,
  reach 2 [[CCompleteEach 1 0 9 (Some 2) true]; [CUpdateTask 0]] s /\ stuck 2 s.
Proof.
  destruct (drive 2 [0;0;0;0; 1;1] (map start [[CCompleteEach 1 0 9 (Some 2) true]; [CUpdateTask 0]])) as [s|] eqn:E;
    [|vm_compute in E; discriminate].
  exists s. split; [exact (drive_steps _ _ _ E)|]. vm_compute in E. injection E as <-. split.
  - intros D. inversion D as [|? ? X]. destruct X. discriminate.
  - intros s' H. remember (_ :: _) as s0 eqn:Q in H.
    destruct H as [s1 p s2 R|s1 p s2 k R _]; (destruct s1 as [|a [|b [|c s1]]]; cbn in Q; try discriminate Q;
      injection Q; intros; subst; vm_compute in R; discriminate R).
Qed.

(** Two handlers about to commit changes of different rows of one job's tree, and two inserts for one job side by side. *)
Example C82_one_writer_nonvacuous : exists s,
  reach 4 [[CUpdateTask 1]; [CUpdateTask 2]; [CCreateTask 9]; [CCreateTask 9]] s /\ Forall (fun p => todo p = [End]) s /\
  (exists r, count_occ Bool.bool_dec (map (fun x => existsb (fun e => row_eqb (fst e) r) x) (flat_map open_ s)) true = 2).
Proof.
  destruct (drive 4 [0;0;0; 1;1;1; 2;2;2; 3;3;3] (map start [[CUpdateTask 1]; [CUpdateTask 2]; [CCreateTask 9]; [CCreateTask 9]])) as [s|] eqn:E;
    [|vm_compute in E; discriminate].
  exists s. split; [exact (drive_steps _ _ _ E)|]. vm_compute in E. injection E as <-.
  split; [repeat constructor|]. exists (RJob 9). reflexivity.
Qed.

Print Assumptions C82_never_stuck.
Print Assumptions C82_all_finish.
Print Assumptions C82_within_limit.
Print Assumptions C82_locks_exclude.
Print Assumptions C82_one_writer.
Print Assumptions C82_inserts_do_not_wait.
Print Assumptions C82_single_connection_refuted.
Print Assumptions C82_pool_exhausted_refuted.
