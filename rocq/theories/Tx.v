(** C31: transactions.  datastore/postgres/postgres.go:1591-1648 (get, select_, exec, WithTx).

    A function passed to WithTx is any program over the transaction's handle: it reads and writes rows, may open
    transactions on that handle again, and returns an error or not, or panics.  Meanwhile other sessions commit what they
    like, except to rows this transaction has written (the database holds their locks) and with the isolation of
    PostgreSQL's default level (READ COMMITTED: a read sees what is committed, and the transaction's own writes).
    An operation that fails inside a transaction makes the database refuse everything that follows in it, including the
    commit. *)
From Verif Require Import Types World.
Open Scope list_scope.

(** a row by table and primary key, its contents *)
Definition key := N.
Definition val := N.
Definition table := key -> option val.
Definition writes := list (key * option val).
(** what the transaction sees: its own last write of a row, otherwise what is committed *)
Fixpoint over (ws : writes) (s : table) : table :=
  match ws with [] => s | (k, v) :: ws => over ws (fun k' => if N.eqb k' k then v else s k') end.

(** the functions passed to WithTx *)
Inductive code :=
| Return (err : bool)                                     (* returns an error ([true]) or nil *)
| Raise                                                   (* panics *)
| Get (k : key) (then_ : option (option val) -> code)     (* ptx.get, ptx.select_: [None] on an error *)
| Put (k : key) (v : option val) (then_ : bool -> code)   (* ptx.exec: [true] on success *)
| WithTx (f : code) (then_ : bool -> code).               (* tx.WithTx(f): [true] if it returned nil *)

Inductive status := Working | Ended (ok : bool) | Lost.   (* WithTx returned nil or an error; the goroutine or process is gone *)
Record session := mkS {
  committed : table;       (* what every other session sees *)
  mine : writes;           (* written in this transaction *)
  dead : bool;             (* an operation failed: the database refuses the rest *)
  cur : code; frames : list (bool -> code);   (* nested calls *)
  st : status }.

Inductive label := L_own | L_end (visible : bool) | L_other.
(** One step; [L_end v]: the outermost WithTx ends, its writes becoming visible or not. *)
Inductive step : label -> session -> session -> Prop :=
| t_get s k c : st s = Working -> cur s = Get k c -> dead s = false ->
    step L_own s (mkS (committed s) (mine s) (dead s) (c (Some (over (mine s) (committed s) k))) (frames s) Working)
| t_get_fails s k c : st s = Working -> cur s = Get k c ->
    step L_own s (mkS (committed s) (mine s) true (c None) (frames s) Working)
| t_put s k v c : st s = Working -> cur s = Put k v c -> dead s = false ->
    step L_own s (mkS (committed s) (mine s ++ [(k, v)]) (dead s) (c true) (frames s) Working)
| t_put_fails s k v c : st s = Working -> cur s = Put k v c ->
    step L_own s (mkS (committed s) (mine s) true (c false) (frames s) Working)
(* postgres.go:1618-1620: a handle with a transaction reuses it; [owner] stays false *)
| t_nest s f c : st s = Working -> cur s = WithTx f c ->
    step L_own s (mkS (committed s) (mine s) (dead s) f (c :: frames s) Working)
(* postgres.go:1630-1639,1647: returning from a nested call neither rolls back nor commits *)
| t_unnest s e c fs : st s = Working -> cur s = Return e -> frames s = c :: fs ->
    step L_own s (mkS (committed s) (mine s) (dead s) (c (negb e)) fs Working)
(* postgres.go:1630-1638: the owner rolls back *)
| t_rollback s : st s = Working -> cur s = Return true -> frames s = [] ->
    step (L_end false) s (mkS (committed s) [] (dead s) (Return true) [] (Ended false))
(* postgres.go:1640-1646: the owner commits; the commit may fail, and fails if an operation did *)
| t_commit s : st s = Working -> cur s = Return false -> frames s = [] -> dead s = false ->
    step (L_end true) s (mkS (over (mine s) (committed s)) (mine s) (dead s) (Return false) [] (Ended true))
| t_commit_fails s : st s = Working -> cur s = Return false -> frames s = [] ->
    step (L_end false) s (mkS (committed s) [] (dead s) (Return false) [] (Ended false))
(* the commit took place but its confirmation was lost: an error is returned *)
| t_commit_unconfirmed s : st s = Working -> cur s = Return false -> frames s = [] -> dead s = false ->
    step (L_end true) s (mkS (over (mine s) (committed s)) (mine s) (dead s) (Return false) [] (Ended false))
(* a panic is not recovered in WithTx, a process may be killed, a connection may break: the database drops the transaction *)
| t_lost s : st s = Working -> step (L_end false) s (mkS (committed s) [] (dead s) (cur s) (frames s) Lost)
(* other sessions commit changes to rows not locked by this transaction *)
| t_other s t : (forall k, In k (map fst (mine s)) -> st s = Working -> t k = committed s k) ->
    step L_other s (mkS t (mine s) (dead s) (cur s) (frames s) (st s)).

Definition begin (t : table) (f : code) : session := mkS t [] false f [] Working.

(** Executions, with the writes [done] the function has successfully performed so far *)
Inductive exec (t : table) (f : code) : list label -> session -> Prop :=
| e_nil : exec t f [] (begin t f)
| e_step ls l s s' : exec t f ls s -> step l s s' -> exec t f (ls ++ [l]) s'.

(** ** Nothing is visible before the end: own steps leave what others see unchanged *)
Theorem C31_invisible_before_commit : forall s s', step L_own s s' -> committed s' = committed s /\ st s' = Working.
Proof. intros s s' H. inversion H; subst; cbn; auto. Qed.

(** ** At the end: all or nothing *)
(** the successful writes of an execution, from its steps *)
Inductive performed (t : table) (f : code) : list label -> session -> writes -> Prop :=
| p_nil : performed t f [] (begin t f) []
| p_put ls s s' k v ws : performed t f ls s ws -> step L_own s s' -> mine s' = mine s ++ [(k, v)] -> performed t f (ls ++ [L_own]) s' (ws ++ [(k, v)])
| p_other ls l s s' ws : performed t f ls s ws -> step l s s' -> (l = L_own -> mine s' = mine s) -> performed t f (ls ++ [l]) s' ws.

Lemma performed_mine t f ls s ws : performed t f ls s ws -> st s = Working -> mine s = ws.
Proof.
  induction 1 as [|ls s s' k v ws P IH H E|ls l s s' ws P IH H E]; intros W; [reflexivity|..].
  - assert (W0 : st s = Working) by (inversion H; subst; assumption). now rewrite E, IH.
  - inversion H; subst; cbn in *; try discriminate; try (rewrite E by reflexivity; now apply IH); now apply IH.
Qed.
Lemma exec_performed t f ls s : exec t f ls s -> exists ws, performed t f ls s ws.
Proof.
  induction 1 as [|ls l s s' _ (ws & P) H]; [exists []; constructor|].
  destruct l; [|exists ws; eapply p_other; eauto; discriminate..].
  inversion H; subst; cbn; try (exists ws; eapply p_other; eauto; fail).
  exists (ws ++ [(k, v)]). eapply p_put; eauto.
Qed.

(** Whatever the function does, however deeply its transactions are nested and wherever it fails: when the outermost
    WithTx ends, either every write performed since its beginning becomes visible at once, or none does; if WithTx returns
    nil they are visible; if the function returned an error, panicked, or an operation failed, they are not. *)
Theorem C31_all_or_nothing : forall t f ls s ws v s', performed t f ls s ws -> step (L_end v) s s' ->
  (committed s' = over ws (committed s) \/ committed s' = committed s) /\
  (v = true -> committed s' = over ws (committed s)) /\ (v = false -> committed s' = committed s) /\
  (st s' = Ended true -> v = true) /\
  (cur s = Return true -> v = false) /\ (cur s = Raise -> v = false) /\ (dead s = true -> v = false).
Proof.
  intros t f ls s ws v s' P H. assert (W : st s = Working) by (inversion H; assumption).
  pose proof (performed_mine t f ls s ws P W) as M. subst ws.
  inversion H; subst; cbn; repeat split; auto; congruence.
Qed.
(** After the end nothing of the transaction happens any more *)
Theorem C31_ends_once : forall l s s', step l s s' -> st s <> Working -> l = L_other.
Proof. intros l s s' H N. inversion H; subst; try reflexivity; congruence. Qed.
(** A row written by the transaction stays as it was for everybody else until the end *)
Theorem C31_isolated : forall t f ls s ws k v, performed t f ls s ws -> st s = Working -> In (k, v) ws ->
  forall l s', step l s s' -> st s' = Working -> committed s' k = committed s k.
Proof.
  intros t f ls s ws k v P W Hk l s' H W'. pose proof (performed_mine t f ls s ws P W) as M. subst ws.
  inversion H; subst; cbn in *; try reflexivity; try discriminate.
  match goal with X : forall k0, _ -> _ -> _ = _ |- _ => apply X; [|assumption] end. apply in_map_iff. now exists (k, v).
Qed.

(** ** With nothing else going on: running the function in a transaction is running it, or not running it *)
(** the function run directly on the tables, nested transactions being just calls *)
Fixpoint plain (f : code) (t : table) (done : bool -> table -> table * option bool) : table * option bool :=
  match f with
  | Return e => done (negb e) t
  | Raise => (t, None)
  | Get k c => plain (c (Some (t k))) t done
  | Put k v c => plain (c true) (fun k' => if N.eqb k' k then v else t k') done
  | WithTx g c => plain g t (fun ok t' => plain (c ok) t' done)
  end.
Definition result (f : code) (t : table) : table * option bool := plain f t (fun ok t' => (t', Some ok)).

(** fault-free steps of this session alone *)
Inductive clean : session -> session -> Prop :=
| cl_get s k c : st s = Working -> cur s = Get k c -> clean s (mkS (committed s) (mine s) (dead s) (c (Some (over (mine s) (committed s) k))) (frames s) Working)
| cl_put s k v c : st s = Working -> cur s = Put k v c -> clean s (mkS (committed s) (mine s ++ [(k, v)]) (dead s) (c true) (frames s) Working)
| cl_nest s f c : st s = Working -> cur s = WithTx f c -> clean s (mkS (committed s) (mine s) (dead s) f (c :: frames s) Working)
| cl_unnest s e c fs : st s = Working -> cur s = Return e -> frames s = c :: fs -> clean s (mkS (committed s) (mine s) (dead s) (c (negb e)) fs Working)
| cl_rollback s : st s = Working -> cur s = Return true -> frames s = [] -> clean s (mkS (committed s) [] (dead s) (Return true) [] (Ended false))
| cl_commit s : st s = Working -> cur s = Return false -> frames s = [] -> clean s (mkS (over (mine s) (committed s)) (mine s) (dead s) (Return false) [] (Ended true))
| cl_panic s : st s = Working -> cur s = Raise -> clean s (mkS (committed s) [] (dead s) (cur s) (frames s) Lost).
Inductive cleans : session -> session -> Prop :=
| cls_refl s : cleans s s
| cls_step s s' s'' : clean s s' -> cleans s' s'' -> cleans s s''.
Lemma clean_is_step s s' : clean s s' -> dead s = false -> exists l, step l s s' /\ dead s' = false.
Proof. intros H D. destruct H; eexists; (split; [|cbn; assumption]); econstructor; eauto. Qed.

Lemma over_app ws k v t : over (ws ++ [(k, v)]) t = (fun k' => if N.eqb k' k then v else over ws t k').
Proof.
  revert t. induction ws as [|[k1 v1] ws IH]; intros t; cbn; [reflexivity|]. apply IH.
Qed.
(** the continuation described by the frames *)
Fixpoint rest (fs : list (bool -> code)) (ok : bool) (t : table) : table * option bool :=
  match fs with [] => (t, Some ok) | c :: fs => plain (c ok) t (rest fs) end.
Definition goal (s : session) : table * option bool :=
  match st s with
  | Working => match plain (cur s) (over (mine s) (committed s)) (rest (frames s)) with
               | (t', Some true) => (t', Some true) | (_, Some false) => (committed s, Some false) | (_, None) => (committed s, None) end
  | Ended ok => (committed s, Some ok)
  | Lost => (committed s, None)
  end.
Lemma clean_goal s s' : clean s s' -> goal s' = goal s.
Proof.
  intros H. destruct H as [s k c W C|s k v c W C|s f c W C|s e c fs W C F|s W C F|s W C F|s W C]; unfold goal; cbn; rewrite W, C; cbn.
  - reflexivity.
  - now rewrite over_app.
  - reflexivity.
  - rewrite F. cbn. reflexivity.
  - rewrite F. reflexivity.
  - rewrite F. reflexivity.
  - reflexivity.
Qed.
Lemma clean_progress s : st s = Working -> exists s', clean s s'.
Proof.
  intros W. destruct (cur s) as [e| |k c|k v c|g c] eqn:C; try (eexists; econstructor; eassumption).
  destruct (frames s) as [|c fs] eqn:F; [|eexists; eapply cl_unnest; eassumption].
  destruct e; eexists; [eapply cl_rollback|eapply cl_commit]; eassumption.
Qed.
(** WithTx(f), alone: it ends in exactly one way: with f's effects if f returns nil, without any if it returns an error or panics *)
Theorem C31_as_a_whole : forall t f s, cleans (begin t f) s ->
  match st s with
  | Working => committed s = t
  | Ended true => result f t = (committed s, Some true)
  | Ended false => committed s = t /\ exists t', result f t = (t', Some false)
  | Lost => committed s = t /\ exists t', result f t = (t', None)
  end.
Proof.
  intros t f s H.
  assert (G : goal s = goal (begin t f)).
  { clear - H. induction H as [|s s' s'' A _ IH]; [reflexivity|]. now rewrite IH, (clean_goal _ _ A). }
  assert (W : st s = Working -> committed s = t).
  { clear G. remember (begin t f) as s0 eqn:E0. assert (K : committed s0 = t) by (subst; reflexivity). clear E0.
    induction H as [|s s' s'' A R IH]; [auto|]. intros W. destruct (st s') eqn:S'.
    - apply IH; [|assumption]. destruct A; cbn in *; auto; congruence.
    - exfalso. inversion R as [|? ? ? A']; subst; [congruence|]. destruct A'; congruence.
    - exfalso. inversion R as [|? ? ? A']; subst; [congruence|]. destruct A'; congruence. }
  assert (E : goal (begin t f) = match result f t with (t', Some true) => (t', Some true) | (_, Some false) => (t, Some false) | (_, None) => (t, None) end) by reflexivity.
  rewrite E in G. unfold goal in G. destruct (st s) as [|[|]|] eqn:S.
  - now apply W.
  - destruct (result f t) as [t' [[]|]]; congruence.
  - destruct (result f t) as [t' [[]|]]; [congruence| |congruence]. split; [congruence|eauto].
  - destruct (result f t) as [t' [[]|]]; [congruence|congruence|]. split; [congruence|eauto].
Qed.
(** and it does end: no step count is infinite *)
Theorem C31_terminates : forall t f, exists s, cleans (begin t f) s /\ st s <> Working.
Proof.
  intros t f.
  assert (X : forall g s, st s = Working -> cur s = g -> exists s', cleans s s' /\ (st s' <> Working \/ (st s' = Working /\ frames s' = frames s /\ exists e, cur s' = Return e))).
  { induction g as [e| |k c IH|k v c IH|g IHg c IH]; intros s W C.
    - exists s. split; [constructor|right; eauto].
    - eexists. split; [eapply cls_step; [apply (cl_panic s W C)|constructor]|]. left. cbn. discriminate.
    - destruct (IH _ (mkS (committed s) (mine s) (dead s) (c (Some (over (mine s) (committed s) k))) (frames s) Working) eq_refl eq_refl) as (s' & R & D).
      exists s'. split; [eapply cls_step; [apply (cl_get s k c W C)|exact R]|exact D].
    - destruct (IH true (mkS (committed s) (mine s ++ [(k, v)]) (dead s) (c true) (frames s) Working) eq_refl eq_refl) as (s' & R & D).
      exists s'. split; [eapply cls_step; [apply (cl_put s k v c W C)|exact R]|exact D].
    - destruct (IHg (mkS (committed s) (mine s) (dead s) g (c :: frames s) Working) eq_refl eq_refl) as (s1 & R1 & [D1|(W1 & F1 & e & C1)]).
      + exists s1. split; [eapply cls_step; [apply (cl_nest s g c W C)|exact R1]|now left].
      + cbn in F1. destruct (IH (negb e) (mkS (committed s1) (mine s1) (dead s1) (c (negb e)) (frames s) Working) eq_refl eq_refl) as (s2 & R2 & D2).
        exists s2. split; [|exact D2]. eapply cls_step; [apply (cl_nest s g c W C)|].
        assert (T : forall a b d, cleans a b -> cleans b d -> cleans a d) by (induction 1; eauto using cls_step).
        eapply T; [exact R1|]. eapply cls_step; [apply (cl_unnest s1 e c (frames s) W1 C1 F1)|exact R2]. }
  destruct (X f (begin t f) eq_refl eq_refl) as (s & R & [D|(W & F & e & C)]); [eauto|].
  assert (T : forall a b d, cleans a b -> cleans b d -> cleans a d) by (induction 1; eauto using cls_step).
  destruct e; eexists.
  - split; [eapply T; [exact R|eapply cls_step; [apply (cl_rollback s W C F)|constructor]]|cbn; discriminate].
  - split; [eapply T; [exact R|eapply cls_step; [apply (cl_commit s W C F)|constructor]]|cbn; discriminate].
Qed.

(** ** Where expectations fail *)
(** A nested transaction that fails does not undo its own writes when the outer function goes on. *)
Theorem C31_nested_failure_kept_refuted : exists f s,
  f = WithTx (Put 1%N (Some 5%N) (fun _ => Return true)) (fun ok => Return false) /\
  cleans (begin (fun _ => None) f) s /\ st s = Ended true /\ committed s 1%N = Some 5%N.
Proof.
  destruct (C31_terminates (fun _ => None) (WithTx (Put 1%N (Some 5%N) (fun _ => Return true)) (fun ok => Return false))) as (s & R & N).
  pose proof (C31_as_a_whole _ _ _ R) as A. eexists _, s. split; [reflexivity|]. split; [exact R|].
  destruct (st s) as [|[|]|]; [congruence| | |].
  - split; [reflexivity|]. injection A as A. rewrite <- A. reflexivity.
  - destruct A as (_ & t' & A). discriminate.
  - destruct A as (_ & t' & A). discriminate.
Qed.
(** WithTx may return an error although everything was committed (confirmation lost): an error does not mean "none". *)
Theorem C31_error_after_commit_refuted : exists t f ls s ws s', performed t f ls s ws /\ step (L_end true) s s' /\
  st s' = Ended false /\ committed s' 1%N = Some 5%N /\ committed s 1%N = None.
Proof.
  set (s0 := begin (fun _ => None) (Put 1%N (Some 5%N) (fun _ => Return false))).
  set (s1 := mkS (fun _ => None) [(1%N, Some 5%N)] false (Return false) [] Working).
  exists (fun _ => None), (Put 1%N (Some 5%N) (fun _ => Return false)), [L_own], s1, [(1%N, Some 5%N)].
  eexists. split; [apply (p_put _ _ [] s0 s1 1%N (Some 5%N) [])|].
  - constructor.
  - apply (t_put s0 1%N (Some 5%N) (fun _ => Return false)); reflexivity.
  - reflexivity.
  - split; [apply (t_commit_unconfirmed s1); reflexivity|]. repeat split; reflexivity.
Qed.

Print Assumptions C31_invisible_before_commit.
Print Assumptions C31_all_or_nothing.
Print Assumptions C31_ends_once.
Print Assumptions C31_isolated.
Print Assumptions C31_as_a_whole.
Print Assumptions C31_terminates.
Print Assumptions C31_nested_failure_kept_refuted.
Print Assumptions C31_error_after_commit_refuted.
