(** C91: which task a worker gets next.  broker/rabbitmq.go:25-36, 454-489 (declareQueue), 491-531 (publish: Priority), 255 (Qos);
    broker/queues.go:51-70; scheduler.go:70-72 (Handlers.v, C20).  The order the server hands out messages in follows RabbitMQ's
    rules: a classic queue declared with x-max-priority m has the levels 0..m, a message of a higher priority counting as m;
    it hands out from the highest level that has messages, within a level in the order of queueing; without that argument there
    is one level; a message given back returns to its place.
    Simplified: one queue at a time; messages neither expire nor are lost (Rabbit.v has that). *)
From Coq Require Import Permutation Sorted.
From Verif Require Import Types Handlers SpecSeq SeqTools Sim InvSched PropsSched Validate.
Open Scope string_scope.
Open Scope list_scope.
Open Scope Z_scope.

(* ------------------------------------------------------------------ *)
(** * Specification *)
(** What happened on a queue: a task was published, the [n]-th task published (from 0) was handed to a worker, was given back
    (the worker's channel was lost) or was acknowledged. *)
Inductive qev := Pub (t : task) | Give (n : nat) | Back (n : nat) | Ack (n : nat).
(** the tasks published, in order *)
Definition published_of (h : list qev) : list task := flat_map (fun e => match e with Pub t => [t] | _ => [] end) h.
Definition gives (n : nat) (h : list qev) : nat := length (filter (fun e => match e with Give m => Nat.eqb m n | _ => false end) h).
Definition backs (n : nat) (h : list qev) : nat := length (filter (fun e => match e with Back m => Nat.eqb m n | _ => false end) h).
(** after [h] the [n]-th task published is [t], and it is waiting: as often given back as handed out *)
Definition waiting (h : list qev) (n : nat) (t : task) : Prop := nth_error (published_of h) n = Some t /\ gives n h = backs n h.

(* ------------------------------------------------------------------ *)
(** * Model *)
(** rabbitmq.go:25-36: the queue types; 454-480: what a queue is declared with *)
Inductive qtype := Classic | Quorum.
Record qdecl := mkQDecl { qd_durable : bool; qd_exclusive : bool; qd_ttl : option Z; qd_max_priority : option Z; qd_type : option qtype; qd_consumer_timeout : Z }.
Definition max_priority : Z := 9.
Definition declare_queue (ty : qtype) (durable : bool) (ttl ctimeout : Z) (q : string) : qdecl :=
  mkQDecl (durable || match ty with Quorum => true | _ => false end) (String.prefix QUEUE_EXCLUSIVE_PREFIX q)
    (if String.eqb q QUEUE_HEARTBEAT then Some ttl else None)
    (if is_task_queue q && match ty with Classic => true | _ => false end then Some max_priority else None)
    (if negb (String.prefix QUEUE_EXCLUSIVE_PREFIX q) then Some ty else None)
    ctimeout.
(** rabbitmq.go:491-496: uint8(task.Priority) *)
Definition wire_priority (t : task) : Z := t_priority t mod 256.

(** the server's queue *)
Record qentry := mkQEntry { qe_no : nat; qe_prio : Z }.
Record squeue := mkSQueue { sq_max : option Z; sq_waiting : list qentry; sq_out : list qentry; sq_next : nat }.
Definition squeue0 (d : qdecl) := mkSQueue (qd_max_priority d) [] [] 0.
Definition level (max : option Z) (e : qentry) : Z := match max with Some m => Z.min (qe_prio e) m | None => 0 end.
Fixpoint insert (e : qentry) (l : list qentry) : list qentry :=
  match l with [] => [e] | x :: l' => if Nat.leb (qe_no e) (qe_no x) then e :: l else x :: insert e l' end.
Definition top_level (max : option Z) (l : list qentry) : Z := fold_right Z.max 0 (map (level max) l).
(** the message handed out next *)
Definition fetch (max : option Z) (l : list qentry) : option qentry := find (fun e => Z.eqb (level max e) (top_level max l)) l.
Definition without (n : nat) (l : list qentry) : list qentry := filter (fun e => negb (Nat.eqb (qe_no e) n)) l.
Definition qstep (s : squeue) (e : qev) : option squeue :=
  match e with
  | Pub t => Some (mkSQueue (sq_max s) (sq_waiting s ++ [mkQEntry (sq_next s) (wire_priority t)]) (sq_out s) (S (sq_next s)))
  | Give n =>
      match fetch (sq_max s) (sq_waiting s) with
      | Some x => if Nat.eqb (qe_no x) n then Some (mkSQueue (sq_max s) (without n (sq_waiting s)) (x :: sq_out s) (sq_next s)) else None
      | None => None
      end
  | Back n =>
      match find (fun x => Nat.eqb (qe_no x) n) (sq_out s) with
      | Some x => Some (mkSQueue (sq_max s) (insert x (sq_waiting s)) (without n (sq_out s)) (sq_next s))
      | None => None
      end
  | Ack n =>
      match find (fun x => Nat.eqb (qe_no x) n) (sq_out s) with
      | Some x => Some (mkSQueue (sq_max s) (sq_waiting s) (without n (sq_out s)) (sq_next s))
      | None => None
      end
  end.
Inductive qruns (s0 : squeue) : list qev -> squeue -> Prop :=
| qr_nil : qruns s0 [] s0
| qr_step h s e s' : qruns s0 h s -> qstep s e = Some s' -> qruns s0 (h ++ [e]) s'.

(* ------------------------------------------------------------------ *)
(** * Proofs *)
Definition is_no (n : nat) (x : qentry) : Prop := qe_no x = n.
Lemma in_without n l x : In x (without n l) <-> In x l /\ qe_no x <> n.
Proof. unfold without. rewrite filter_In, negb_true_iff, Nat.eqb_neq. tauto. Qed.
Lemma in_insert e l x : In x (insert e l) <-> x = e \/ In x l.
Proof.
  induction l as [|y l IH]; cbn [insert]; [cbn; intuition|]. destruct (Nat.leb (qe_no e) (qe_no y)); cbn [In]; [intuition|]. rewrite IH. intuition.
Qed.
Definition lt_no (x y : qentry) := (qe_no x < qe_no y)%nat.
Lemma sorted_without n l : StronglySorted lt_no l -> StronglySorted lt_no (without n l).
Proof.
  induction 1 as [|x l S IH F]; [constructor|]. cbn [without filter]. destruct (negb _); [|exact IH]. constructor; [exact IH|].
  rewrite Forall_forall in *. intros y Hy. apply F. apply filter_In in Hy. tauto.
Qed.
Lemma sorted_insert e l : StronglySorted lt_no l -> (forall x, In x l -> qe_no x <> qe_no e) -> StronglySorted lt_no (insert e l).
Proof.
  induction 1 as [|x l S IH F]; intros N; cbn [insert]; [repeat constructor|]. rewrite Forall_forall in F. destruct (Nat.leb_spec (qe_no e) (qe_no x)) as [L|L].
  - constructor; [constructor; [exact S|now rewrite Forall_forall]|]. specialize (N x (or_introl eq_refl)). apply Forall_forall. intros y [<-|Hy]; unfold lt_no in *; [lia|].
    specialize (F y Hy). lia.
  - constructor; [apply IH; intros y Hy; apply N; now right|]. apply Forall_forall. intros y Hy. apply in_insert in Hy. destruct Hy as [->|Hy]; [exact L|auto].
Qed.
Lemma sorted_snoc e l : StronglySorted lt_no l -> (forall x, In x l -> (qe_no x < qe_no e)%nat) -> StronglySorted lt_no (l ++ [e]).
Proof.
  induction 1 as [|x l S IH F]; intros N; cbn [app]; [repeat constructor|]. constructor; [apply IH; intros y Hy; apply N; now right|].
  apply Forall_app. split; [exact F|]. repeat constructor. apply N. now left.
Qed.
Lemma top_bound max l x : In x l -> level max x <= top_level max l.
Proof. unfold top_level. induction l as [|y l IH]; [contradiction|]. cbn [map fold_right]. intros [->|H]; [lia|]. specialize (IH H). lia. Qed.
Lemma fetch_spec max l x : StronglySorted lt_no l -> fetch max l = Some x -> In x l /\
  (forall y, In y l -> level max y <= level max x) /\ (forall y, In y l -> level max y = level max x -> (qe_no x <= qe_no y)%nat).
Proof.
  unfold fetch. intros S E. assert (T := top_bound max l). revert T E. generalize (top_level max l) as top. intros top T E.
  apply find_some in E as E1. destruct E1 as (I & E1). apply Z.eqb_eq in E1. split; [exact I|]. split; [intros y Hy; rewrite E1; auto|].
  clear T I. induction S as [|z l S IH F]; [discriminate|]. cbn [find] in E. destruct (Z.eqb_spec (level max z) top) as [E2|E2].
  - injection E as ->. rewrite Forall_forall in F. intros y [->|Hy] _; [lia|]. specialize (F y Hy). unfold lt_no in F. lia.
  - intros y [->|Hy] Ey; [congruence|]. exact (IH E y Hy Ey).
Qed.
Lemma fetch_some max l : (forall x, In x l -> 0 <= level max x) -> l <> [] -> exists x, fetch max l = Some x.
Proof.
  intros P N. unfold fetch. enough (G : exists x, In x l /\ level max x = top_level max l).
  { destruct G as (x & I & E). destruct (find (fun e => level max e =? top_level max l) l) as [y|] eqn:F; [eauto|].
    apply (find_none _ _ F) in I. rewrite E, Z.eqb_refl in I. discriminate. }
  induction l as [|y l IH]; [contradiction|]. destruct l as [|z l].
  - exists y. split; [now left|]. unfold top_level. cbn. specialize (P y (or_introl eq_refl)). lia.
  - destruct IH as (x & I & E); [intros w Hw; apply P; now right|discriminate|]. change (top_level max (y :: z :: l)) with (Z.max (level max y) (top_level max (z :: l))).
    destruct (Z.max_spec (level max y) (top_level max (z :: l))) as [(_ & ->)|(_ & ->)]; [exists x; split; [now right|exact E]|exists y; split; [now left|reflexivity]].
Qed.
Lemma gives_app n h e : gives n (h ++ [e]) = (gives n h + match e with Give m => if Nat.eqb m n then 1 else 0 | _ => 0 end)%nat.
Proof. unfold gives. rewrite filter_app, app_length. cbn [filter]. destruct e as [t|m|m|m]; try (cbn; lia). destruct (Nat.eqb m n); cbn; lia. Qed.
Lemma backs_app n h e : backs n (h ++ [e]) = (backs n h + match e with Back m => if Nat.eqb m n then 1 else 0 | _ => 0 end)%nat.
Proof. unfold backs. rewrite filter_app, app_length. cbn [filter]. destruct e as [t|m|m|m]; try (cbn; lia). destruct (Nat.eqb m n); cbn; lia. Qed.
Lemma published_app h e : published_of (h ++ [e]) = published_of h ++ match e with Pub t => [t] | _ => [] end.
Proof. unfold published_of. rewrite flat_map_app. cbn. rewrite app_nil_r. reflexivity. Qed.

Lemma prefix_app p : forall q, String.prefix p q = true -> exists r, q = (p ++ r)%string.
Proof.
  induction p as [|a p IH]; intros q H; [exists q; reflexivity|]. destruct q as [|b q]; [discriminate|]. cbn [String.prefix] in H.
  destruct (Ascii.ascii_dec a b) as [<-|]; [|discriminate]. destruct (IH q H) as (r & ->). exists r. reflexivity.
Qed.
Lemma app_prefix p r : String.prefix p (p ++ r) = true.
Proof. induction p as [|a p IH]; [destruct r; reflexivity|]. cbn [String.append String.prefix]. destruct (Ascii.ascii_dec a a); [exact IH|contradiction]. Qed.

(** what the queue holds, by the history *)
Definition of_task (h : list qev) (x : qentry) : Prop := exists t, nth_error (published_of h) (qe_no x) = Some t /\ qe_prio x = wire_priority t.
Record qinv (m : option Z) (h : list qev) (s : squeue) : Prop := mkQInv {
  qi_max : sq_max s = m;
  qi_next : sq_next s = length (published_of h);
  qi_sorted : StronglySorted lt_no (sq_waiting s);
  qi_out_nodup : NoDup (map qe_no (sq_out s));
  qi_waiting : forall n, (n < sq_next s)%nat -> (gives n h = backs n h <-> exists x, In x (sq_waiting s) /\ qe_no x = n);
  qi_out : forall x, In x (sq_out s) -> of_task h x /\ gives (qe_no x) h = S (backs (qe_no x) h);
  qi_entries : forall x, In x (sq_waiting s) -> of_task h x;
  qi_once : forall n, (gives n h <= S (backs n h))%nat /\ (backs n h <= gives n h)%nat;
  qi_new : forall n, (sq_next s <= n)%nat -> gives n h = 0%nat /\ backs n h = 0%nat }.
Lemma of_task_app h e x : of_task h x -> of_task (h ++ [e]) x.
Proof.
  intros (t & H & P). exists t. split; [|exact P]. rewrite published_app, nth_error_app1; [exact H|]. apply nth_error_Some. congruence.
Qed.
Lemma of_task_lt h x : of_task h x -> (qe_no x < length (published_of h))%nat.
Proof. intros (t & H & _). apply nth_error_Some. congruence. Qed.
Lemma nodup_without n l : NoDup (map qe_no l) -> NoDup (map qe_no (without n l)).
Proof.
  induction l as [|x l IH]; cbn; [auto|]. intros N. inversion N as [|? ? N1 N2]; subst. destruct (negb _); [|auto]. cbn. constructor; [|auto].
  intros Hi. apply N1. apply in_map_iff in Hi. destruct Hi as (y & E & Hy). apply in_without in Hy. apply in_map_iff. exists y. tauto.
Qed.
Lemma qinv_run d h s : qruns (squeue0 d) h s -> qinv (qd_max_priority d) h s.
Proof.
  induction 1 as [|h s e s' Hr IH Hs].
  - split; cbn; try constructor; try contradiction; try reflexivity; intros; try lia; cbn; lia.
  - destruct IH as [M Nx So Od Wa Ou En On Nw]. destruct e as [t|n|n|n]; cbn [qstep] in Hs.
    + injection Hs as <-. split; cbn [sq_max sq_next sq_waiting sq_out].
      * exact M.
      * rewrite published_app, app_length. cbn. lia.
      * apply sorted_snoc; [exact So|]. intros x Hx. cbn. rewrite Nx. apply of_task_lt. auto.
      * exact Od.
      * intros k Hk. rewrite gives_app, backs_app, !Nat.add_0_r. destruct (Nat.eq_dec k (sq_next s)) as [->|Ne].
        -- destruct (Nw (sq_next s) (le_n _)) as (-> & ->). split; [intros _; eexists; split; [apply in_or_app; right; now left|reflexivity]|reflexivity].
        -- rewrite Wa by lia. split; intros (x & Hx & E); exists x; (split; [|exact E]); [apply in_or_app; now left|].
           apply in_app_or in Hx. destruct Hx as [Hx|[<-|[]]]; [exact Hx|]. cbn in E. congruence.
      * intros x Hx. destruct (Ou x Hx) as (O1 & O2). rewrite gives_app, backs_app, !Nat.add_0_r. split; [now apply of_task_app|exact O2].
      * intros x Hx. apply in_app_or in Hx. destruct Hx as [Hx|[<-|[]]]; [now apply of_task_app, En|]. exists t. split; [|reflexivity]. cbn.
        rewrite published_app, nth_error_app2 by lia. rewrite Nx, Nat.sub_diag. reflexivity.
      * intros k. rewrite gives_app, backs_app, !Nat.add_0_r. apply On.
      * intros k Hk. rewrite gives_app, backs_app, !Nat.add_0_r. apply Nw. lia.
    + destruct (fetch (sq_max s) (sq_waiting s)) as [x|] eqn:F; [|discriminate]. destruct (Nat.eqb_spec (qe_no x) n) as [E|_]; [|discriminate]. injection Hs as <-.
      destruct (fetch_spec _ _ _ So F) as (I & _ & _). assert (Lx : (n < sq_next s)%nat) by (rewrite Nx, <- E; apply of_task_lt; auto).
      assert (B : gives n h = backs n h) by (apply Wa; [exact Lx|eauto]).
      split; cbn [sq_max sq_next sq_waiting sq_out].
      * exact M.
      * rewrite published_app, app_nil_r. exact Nx.
      * now apply sorted_without.
      * cbn [map]. constructor; [|exact Od]. intros Hi. apply in_map_iff in Hi. destruct Hi as (y & Ey & Hy). destruct (Ou y Hy) as (_ & O2). rewrite Ey, E in O2. lia.
      * intros k Hk. rewrite gives_app, backs_app, !Nat.add_0_r. destruct (Nat.eqb_spec n k) as [->|Ne].
        -- split; [intros; lia|]. intros (y & Hy & Ey). apply in_without in Hy. tauto.
        -- rewrite Nat.add_0_r, Wa by exact Hk. split; intros (y & Hy & Ey); exists y; (split; [|exact Ey]); [apply in_without; split; [exact Hy|congruence]|apply in_without in Hy; tauto].
      * intros y [<-|Hy].
        -- split; [apply of_task_app; auto|]. rewrite gives_app, backs_app, !Nat.add_0_r, E, Nat.eqb_refl. lia.
        -- destruct (Ou y Hy) as (O1 & O2). split; [now apply of_task_app|]. rewrite gives_app, backs_app, !Nat.add_0_r. destruct (Nat.eqb_spec n (qe_no y)) as [Ey|_]; [|lia].
           rewrite <- Ey in O2. lia.
      * intros y Hy. apply in_without in Hy. apply of_task_app. apply En. tauto.
      * intros k. rewrite gives_app, backs_app, !Nat.add_0_r. specialize (On k). destruct (Nat.eqb_spec n k) as [->|_]; lia.
      * intros k Hk. rewrite gives_app, backs_app, !Nat.add_0_r. specialize (Nw k Hk). destruct (Nat.eqb_spec n k) as [->|_]; lia.
    + destruct (find (fun x => Nat.eqb (qe_no x) n) (sq_out s)) as [x|] eqn:F; [|discriminate]. injection Hs as <-.
      apply find_some in F. destruct F as (I & E). apply Nat.eqb_eq in E. destruct (Ou x I) as (O1 & O2). rewrite E in O2.
      assert (Lx : (n < sq_next s)%nat) by (rewrite Nx, <- E; now apply of_task_lt).
      assert (Nin : forall y, In y (sq_waiting s) -> qe_no y <> n).
      { intros y Hy Ey. assert (G : gives n h = backs n h) by (apply Wa; [exact Lx|eauto]). lia. }
      split; cbn [sq_max sq_next sq_waiting sq_out].
      * exact M.
      * rewrite published_app, app_nil_r. exact Nx.
      * apply sorted_insert; [exact So|]. intros y Hy. rewrite E. auto.
      * now apply nodup_without.
      * intros k Hk. rewrite gives_app, backs_app, !Nat.add_0_r. destruct (Nat.eqb_spec n k) as [->|Ne].
        -- split; [|intros; lia]. intros _. exists x. split; [apply in_insert; now left|exact E].
        -- rewrite Nat.add_0_r, Wa by exact Hk. split; intros (y & Hy & Ey); exists y; (split; [|exact Ey]); [apply in_insert; now right|].
           apply in_insert in Hy. destruct Hy as [->|Hy]; [congruence|exact Hy].
      * intros y Hy. apply in_without in Hy. destruct Hy as (Hy & Ny). destruct (Ou y Hy) as (P1 & P2). split; [now apply of_task_app|]. rewrite gives_app, backs_app, !Nat.add_0_r.
        destruct (Nat.eqb_spec n (qe_no y)); [congruence|]. lia.
      * intros y Hy. apply in_insert in Hy. apply of_task_app. destruct Hy as [->|Hy]; [exact O1|auto].
      * intros k. rewrite gives_app, backs_app, !Nat.add_0_r. specialize (On k). destruct (Nat.eqb_spec n k) as [->|_]; lia.
      * intros k Hk. rewrite gives_app, backs_app, !Nat.add_0_r. specialize (Nw k Hk). destruct (Nat.eqb_spec n k) as [->|_]; lia.
    + destruct (find (fun x => Nat.eqb (qe_no x) n) (sq_out s)) as [x|] eqn:F; [|discriminate]. injection Hs as <-.
      split; cbn [sq_max sq_next sq_waiting sq_out].
      * exact M.
      * rewrite published_app, app_nil_r. exact Nx.
      * exact So.
      * now apply nodup_without.
      * intros k Hk. rewrite gives_app, backs_app, !Nat.add_0_r. auto.
      * intros y Hy. apply in_without in Hy. destruct Hy as (Hy & Ny). destruct (Ou y Hy) as (P1 & P2). split; [now apply of_task_app|]. now rewrite gives_app, backs_app, !Nat.add_0_r.
      * intros y Hy. apply of_task_app. auto.
      * intros k. rewrite gives_app, backs_app, !Nat.add_0_r. apply On.
      * intros k Hk. rewrite gives_app, backs_app, !Nat.add_0_r. auto.
Qed.
Lemma waiting_entry d h s n t : qruns (squeue0 d) h s -> waiting h n t -> exists x, In x (sq_waiting s) /\ qe_no x = n /\ qe_prio x = wire_priority t.
Proof.
  intros Hr (Ht & Hg). destruct (qinv_run d h s Hr) as [M Nx So Od Wa Ou En On Nw].
  assert (L : (n < sq_next s)%nat) by (rewrite Nx; apply nth_error_Some; congruence).
  destruct (proj1 (Wa n L) Hg) as (x & Hx & E). exists x. split; [exact Hx|]. split; [exact E|]. destruct (En x Hx) as (t' & Ht' & P). rewrite E in Ht'. congruence.
Qed.
Lemma entry_waiting d h s x : qruns (squeue0 d) h s -> In x (sq_waiting s) -> exists t, waiting h (qe_no x) t /\ qe_prio x = wire_priority t.
Proof.
  intros Hr Hx. destruct (qinv_run d h s Hr) as [M Nx So Od Wa Ou En On Nw]. destruct (En x Hx) as (t & Ht & P). exists t. split; [|exact P]. split; [exact Ht|].
  apply Wa; [rewrite Nx; apply nth_error_Some; congruence|eauto].
Qed.

(* ------------------------------------------------------------------ *)
(** * Theorems *)
(** ** Higher priority first
    On a queue tasks may be sent to, with queues of the classic type: whenever a worker is handed a task, no task that waits has
    a higher priority, and none of the same priority was published before it. *)
Theorem C91_higher_priority_first : forall q durable ttl ct h s n s', user_queue q ->
  (forall t, In t (published_of h) -> 0 <= t_priority t <= 9) ->
  qruns (squeue0 (declare_queue Classic durable ttl ct q)) h s -> qstep s (Give n) = Some s' ->
  exists t, waiting h n t /\
    forall n' t', waiting h n' t' -> t_priority t' <= t_priority t /\ (t_priority t' = t_priority t -> (n <= n')%nat).
Proof.
  intros q durable ttl ct h s n s' Hq Hp Hr Hs. destruct (qinv_run _ h s Hr) as [M _ So _ _ _ _ _ _].
  assert (T : is_task_queue q = true).
  { destruct Hq as (Q1 & Q2). unfold is_task_queue, is_coordinator_queue. apply andb_true_iff. split; apply negb_true_iff.
    - destruct (existsb (String.eqb q) _) eqn:E; [|reflexivity]. apply existsb_exists in E. destruct E as (x & Hx & E). apply String.eqb_eq in E. subst x. contradiction.
    - destruct (String.prefix QUEUE_EXCLUSIVE_PREFIX q) eqn:E; [|reflexivity]. exfalso. unfold QUEUE_EXCLUSIVE_PREFIX in E.
      destruct (prefix_app _ _ E) as (r & ->). exact (Q2 r eq_refl). }
  cbn [declare_queue qd_max_priority] in M. rewrite T in M. cbn [andb] in M. cbn [qstep] in Hs. rewrite M in Hs.
  destruct (fetch (Some max_priority) (sq_waiting s)) as [x|] eqn:F; [|discriminate]. destruct (Nat.eqb_spec (qe_no x) n) as [E|_]; [|discriminate].
  destruct (fetch_spec _ _ _ So F) as (I & Top & First). destruct (entry_waiting _ h s x Hr I) as (t & W & P). rewrite E in W. exists t. split; [exact W|].
  assert (Lv : forall y u, qe_prio y = wire_priority u -> In u (published_of h) -> level (Some max_priority) y = t_priority u).
  { intros y u Ey Hu. specialize (Hp u Hu). unfold level, max_priority. rewrite Ey. unfold wire_priority. rewrite Z.mod_small by lia. lia. }
  assert (Lt : level (Some max_priority) x = t_priority t) by (apply Lv; [exact P|]; eapply nth_error_In; apply W).
  intros n' t' W'. destruct (waiting_entry _ h s n' t' Hr W') as (y & Hy & Ey & Py).
  assert (Ly : level (Some max_priority) y = t_priority t') by (apply Lv; [exact Py|]; eapply nth_error_In; apply W'). rewrite <- Lt, <- Ly, <- E, <- Ey.
  split; [exact (Top y Hy)|exact (First y Hy)].
Qed.
(** ... the priority of a task being its own or, if it has none, its job's *)
Theorem C91_priority_of_a_task : forall j u, let t := apply_defaults j u in
  (t_priority u <> 0 -> t_priority t = t_priority u) /\ (t_priority u = 0 -> t_priority t = match j_defaults j with Some d => d_priority d | None => 0 end).
Proof.
  intros j u. destruct (apply_defaults_proj j u) as (_ & _ & _ & _ & P). cbv zeta. set (p := t_priority (apply_defaults j u)) in *. clearbody p. unfold first_nonzero in P. split; intros H.
  - destruct (Z.eqb_spec (t_priority u) 0); [contradiction|exact P].
  - rewrite H in P. cbn in P. rewrite P. unfold defaults_of. destruct (j_defaults j); reflexivity.
Qed.
(** ** While tasks wait there is one to hand out *)
Theorem C91_never_stuck : forall d h s n t, qruns (squeue0 d) h s -> waiting h n t -> qd_max_priority d = None \/ qd_max_priority d = Some max_priority ->
  exists m s', qstep s (Give m) = Some s'.
Proof.
  intros d h s n t Hr W Hd. destruct (waiting_entry d h s n t Hr W) as (x & Hx & _). destruct (qinv_run d h s Hr) as [M _ _ _ _ _ _ _ _].
  destruct (fetch_some (sq_max s) (sq_waiting s)) as (y & F).
  - intros z Hz. destruct (entry_waiting d h s z Hr Hz) as (u & _ & P). rewrite M. unfold level, max_priority, wire_priority in *. destruct Hd as [->| ->]; [lia|]. rewrite P.
    pose proof (Z.mod_pos_bound (t_priority u) 256 eq_refl). unfold max_priority. lia.
  - intros E. rewrite E in Hx. contradiction.
  - exists (qe_no y). cbn [qstep]. rewrite F, Nat.eqb_refl. eauto.
Qed.
(** ** Elsewhere first come, first served: the coordinator's queues, and every queue of the quorum type *)
Theorem C91_in_order_otherwise : forall ty q durable ttl ct h s n s', (ty = Quorum \/ ~ user_queue q) ->
  qruns (squeue0 (declare_queue ty durable ttl ct q)) h s -> qstep s (Give n) = Some s' ->
  forall n' t', waiting h n' t' -> (n <= n')%nat.
Proof.
  intros ty q durable ttl ct h s n s' Hq Hr Hs n' t' W. destruct (qinv_run _ h s Hr) as [M _ So _ _ _ _ _ _].
  assert (N : qd_max_priority (declare_queue ty durable ttl ct q) = None).
  { cbn [declare_queue qd_max_priority]. destruct ty; [|rewrite andb_false_r; reflexivity]. rewrite andb_true_r. destruct Hq as [?|Hq]; [discriminate|].
    destruct (is_task_queue q) eqn:T; [|reflexivity]. exfalso. apply Hq. unfold is_task_queue in T. apply andb_true_iff in T. destruct T as (T1 & T2). apply negb_true_iff in T1, T2. split.
    - intros I. assert (X : is_coordinator_queue q = true) by (apply existsb_exists; exists q; split; [exact I|apply String.eqb_refl]). congruence.
    - intros r ->. change ("x-" ++ r)%string with (QUEUE_EXCLUSIVE_PREFIX ++ r)%string in T2. rewrite app_prefix in T2. discriminate. }
  rewrite N in M. cbn [qstep] in Hs. rewrite M in Hs. destruct (fetch None (sq_waiting s)) as [x|] eqn:F; [|discriminate]. destruct (Nat.eqb_spec (qe_no x) n) as [E|_]; [|discriminate].
  destruct (fetch_spec _ _ _ So F) as (_ & _ & First). destruct (waiting_entry _ h s n' t' Hr W) as (y & Hy & <- & _). rewrite <- E. exact (First y Hy eq_refl).
Qed.

(* ------------------------------------------------------------------ *)
(** * What does not hold *)
(** With quorum queues priorities mean nothing (RabbitMQ 3): a task of priority 9 waits behind one of priority 0. *)
Theorem C91_quorum_ignores_priority_refuted : forall q durable ttl ct lo hi, t_priority lo = 0 -> t_priority hi = 9 ->
  exists s s', qruns (squeue0 (declare_queue Quorum durable ttl ct q)) [Pub lo; Pub hi] s /\ qstep s (Give 0) = Some s' /\ waiting [Pub lo; Pub hi] 1 hi.
Proof.
  intros q durable ttl ct lo hi _ _. eexists. eexists. split; [|split].
  - change [Pub lo; Pub hi] with (([] ++ [Pub lo]) ++ [Pub hi]). eapply qr_step; [eapply qr_step; [apply qr_nil|reflexivity]|reflexivity].
  - cbn [qstep squeue0 sq_max sq_waiting sq_out sq_next declare_queue qd_max_priority app]. rewrite andb_false_r. reflexivity.
  - split; reflexivity.
Qed.
(** A task of low priority may wait for ever: while tasks of higher priority keep coming it is never handed out. *)
Theorem C91_starvation_refuted : forall q durable ttl ct lo hi k, user_queue q -> 0 <= t_priority lo < t_priority hi -> t_priority hi <= 9 ->
  exists h s, qruns (squeue0 (declare_queue Classic durable ttl ct q)) h s /\ length (filter (fun e => match e with Give _ => true | _ => false end) h) = k /\ waiting h 0 lo.
Proof.
  intros q durable ttl ct lo hi k Hq Hlt Hhi.
  enough (G : exists h s, qruns (squeue0 (declare_queue Classic durable ttl ct q)) h s /\ length (filter (fun e => match e with Give _ => true | _ => false end) h) = k /\
    waiting h 0 lo /\ (forall t, In t (published_of h) -> t = lo \/ t = hi) /\ (forall n t, waiting h n t -> n = 0%nat)) by (destruct G as (h & s & G1 & G2 & G3 & _); eauto 6).
  induction k as [|k IH].
  - exists ([] ++ [Pub lo]). eexists. split; [eapply qr_step; [apply qr_nil|reflexivity]|]. split; [reflexivity|]. split; [split; reflexivity|]. split; [intros t [<-|[]]; now left|].
    intros n t (W & _). destruct n as [|[|n]]; cbn in W; [reflexivity|discriminate|discriminate].
  - destruct IH as (h & s & R & L & W & P & O). set (n := length (published_of h)).
    assert (R1 : exists s1, qstep s (Pub hi) = Some s1) by (cbn; eauto). destruct R1 as (s1 & E1). assert (Q1 := qr_step _ h s (Pub hi) s1 R E1).
    assert (W0 : waiting (h ++ [Pub hi]) 0 lo).
    { destruct W as (W1 & W2). split; [rewrite published_app, nth_error_app1; [exact W1|apply nth_error_Some; congruence]|]. now rewrite gives_app, backs_app, !Nat.add_0_r. }
    assert (Wn : waiting (h ++ [Pub hi]) n hi).
    { split; [rewrite published_app, nth_error_app2 by reflexivity; unfold n; rewrite Nat.sub_diag; reflexivity|]. rewrite gives_app, backs_app, !Nat.add_0_r.
      destruct (qinv_run _ h s R) as [_ Nx _ _ _ _ _ _ Nw]. destruct (Nw n) as (-> & ->); [rewrite Nx; apply le_n|reflexivity]. }
    assert (Pn : forall t, In t (published_of (h ++ [Pub hi])) -> t = lo \/ t = hi).
    { intros t Ht. rewrite published_app in Ht. apply in_app_or in Ht. destruct Ht as [Ht|[<-|[]]]; auto. }
    assert (Ow : forall m t, waiting (h ++ [Pub hi]) m t -> m = 0%nat \/ m = n).
    { intros m t (M1 & M2). rewrite published_app in M1. destruct (Nat.lt_ge_cases m n) as [C|C].
      - left. rewrite nth_error_app1 in M1 by exact C. apply (O m t). split; [exact M1|]. now rewrite gives_app, backs_app, !Nat.add_0_r in M2.
      - right. rewrite nth_error_app2 in M1 by exact C. unfold n in C |- *. destruct (m - length (published_of h))%nat as [|[|?]] eqn:D; cbn in M1; try discriminate. lia. }
    destruct (C91_never_stuck _ _ s1 n hi Q1 Wn) as (m & s2 & E2).
    { cbn [declare_queue qd_max_priority]. rewrite andb_true_r. destruct (is_task_queue q); auto. }
    assert (Em : m = n).
    { destruct (C91_higher_priority_first q durable ttl ct (h ++ [Pub hi]) s1 m s2 Hq) as (t & Wt & Best); [|exact Q1|exact E2|].
      - intros t Ht. destruct (Pn t Ht) as [->| ->]; lia.
      - destruct (Ow m t Wt) as [->| ->]; [|reflexivity]. destruct (Best n hi Wn) as (B & _). destruct Wt as (Wt & _), W0 as (W0 & _). rewrite W0 in Wt. injection Wt as <-. lia. }
    subst m. exists ((h ++ [Pub hi]) ++ [Give n]), s2. split; [eapply qr_step; eassumption|].
    assert (Nz : n <> 0%nat). { destruct W as (W1 & _). unfold n. destruct (published_of h); [discriminate|discriminate]. }
    split; [rewrite !filter_app, !app_length, L; cbn; lia|]. split; [|split].
    + destruct W0 as (W1 & W2). split; [rewrite published_app, app_nil_r; exact W1|]. rewrite gives_app, backs_app, Nat.add_0_r. destruct (Nat.eqb_spec n 0); [contradiction|]. lia.
    + intros t Ht. rewrite published_app, app_nil_r in Ht. auto.
    + intros m t (M1 & M2). rewrite published_app, app_nil_r in M1. rewrite gives_app, backs_app, Nat.add_0_r in M2. destruct (Nat.eqb_spec n m) as [Em|Em].
      * subst m. destruct Wn as (_ & Wn). lia.
      * rewrite Nat.add_0_r in M2. destruct (Ow m t (conj M1 M2)) as [->|E]; [reflexivity|congruence].
Qed.
Print Assumptions C91_higher_priority_first.
Print Assumptions C91_priority_of_a_task.
Print Assumptions C91_never_stuck.
Print Assumptions C91_in_order_otherwise.
Print Assumptions C91_quorum_ignores_priority_refuted.
Print Assumptions C91_starvation_refuted.

Fixpoint qrun (s : squeue) (l : list qev) : option squeue := match l with [] => Some s | e :: l => match qstep s e with Some s' => qrun s' l | None => None end end.
Lemma qrun_runs s0 l : forall h s s', qruns s0 h s -> qrun s l = Some s' -> qruns s0 (h ++ l) s'.
Proof.
  induction l as [|e l IH]; intros h s s' R E; cbn [qrun] in E; [injection E as <-; now rewrite app_nil_r|].
  destruct (qstep s e) as [s1|] eqn:E1; [|discriminate]. change (e :: l) with ([e] ++ l). rewrite app_assoc. eapply IH; [eapply qr_step; eassumption|exact E].
Qed.
(** Non-vacuity: three tasks of priorities 0, 5, 5; the second goes first, comes back, goes again before the third *)
Definition pt (n : Z) : task := simple "a" <| t_priority := n |>.
Example C91_nonvacuous : exists s s', user_queue "default" /\
  qruns (squeue0 (declare_queue Classic false 0 0 "default")) [Pub (pt 0); Pub (pt 5); Pub (pt 5); Give 1; Give 2; Back 1] s /\
  qstep s (Give 1) = Some s' /\ qstep s (Give 0) = None.
Proof.
  eexists. eexists. split; [|split; [|split]].
  - split; [intros H; cbn in H; repeat destruct H as [H|H]; try discriminate; contradiction|]. intros r H. discriminate.
  - apply (qrun_runs _ _ [] _ _ (qr_nil _)). vm_compute. reflexivity.
  - vm_compute. reflexivity.
  - vm_compute. reflexivity.
Qed.
