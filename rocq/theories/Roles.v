(** C64: which process consumes which queue.
    broker/queues.go:9-70; internal/coordinator/coordinator.go:76-121 (NewCoordinator), 227-308 (Start);
    internal/worker/worker.go:60-85 (NewWorker), 251-274 (Start). *)
From Coq Require Import String List Bool ZArith Lia Permutation.
Import ListNotations.
Open Scope string_scope.
Open Scope list_scope.
Open Scope Z_scope.

(* ------------------------------------------------------------------ *)
(** * The code *)
(** queues.go:49-61 *)
Definition coordinator_queues : list string :=
  ["pending"; "started"; "completed"; "error"; "heartbeat"; "jobs"; "logs"; "progress"; "redeliveries"].
Definition is_coordinator_queue (q : string) : bool := existsb (String.eqb q) coordinator_queues.
(** queues.go:64-66 *)
Definition is_worker_queue (q : string) : bool := negb (is_coordinator_queue q).

(** a Go map from queue names to numbers of subscribers *)
Definition qmap := list (string * Z).
Definition qget (m : qmap) (q : string) : Z := match find (fun p => String.eqb (fst p) q) m with Some (_, n) => n | None => 0 end.
Fixpoint qset (m : qmap) (q : string) (n : Z) : qmap :=
  match m with
  | [] => [(q, n)]
  | (q', n') :: m => if String.eqb q' q then (q, n) :: m else (q', n') :: qset m q n
  end.
(** coordinator.go:86-121: every queue of its own gets at least one subscriber *)
Definition new_coordinator_queues (m : qmap) : qmap :=
  fold_left (fun m q => if qget m q <? 1 then qset m q 1 else m)
    ["completed"; "error"; "pending"; "started"; "heartbeat"; "jobs"; "logs"; "progress"; "redeliveries"] m.
(** worker.go:61-63 *)
Definition new_worker_queues (m : qmap) : qmap := match m with [] => [("default", 1)] | _ => m end.

(** what a subscriber does with a message *)
Inductive role := OnRedelivered | OnPending | OnCompleted | OnStarted | OnError | OnHeartbeat | OnJob | OnLogPart | OnProgress | HandleTask | CancelTask.
(** a subscription made at the broker: to a queue, with a handler *)
Definition sub := (string * role)%type.
(** coordinator.go:240-280: the switch; the queue subscribed to by SubscribeForHeartbeats, ForJobs, ForTaskLogPart and
    ForTaskProgress is the one of that name (broker/inmemory.go:217,231,305,320; rabbitmq.go likewise) *)
Definition coordinator_sub (q : string) : option sub :=
  if String.eqb q "redeliveries" then Some (q, OnRedelivered)
  else if String.eqb q "pending" then Some (q, OnPending)
  else if String.eqb q "completed" then Some (q, OnCompleted)
  else if String.eqb q "started" then Some (q, OnStarted)
  else if String.eqb q "error" then Some (q, OnError)
  else if String.eqb q "heartbeat" then Some ("heartbeat", OnHeartbeat)
  else if String.eqb q "jobs" then Some ("jobs", OnJob)
  else if String.eqb q "logs" then Some ("logs", OnLogPart)
  else if String.eqb q "progress" then Some ("progress", OnProgress)
  else None.
(** subscribe [n] times; the broker may refuse ([ok k]: whether the [k]-th call succeeds), which ends Start *)
Fixpoint times (n : nat) (s : option sub) (ok : nat -> bool) (acc : list sub) : list sub * bool :=
  match n with
  | O => (acc, true)
  | S n => match s with
           | None => times n s ok acc
           | Some x => if ok (length acc) then times n s ok (acc ++ [x]) else (acc, false)
           end
  end.
Fixpoint subscribe_all (m : qmap) (mine : string -> bool) (f : string -> option sub) (ok : nat -> bool) (acc : list sub) : list sub * bool :=
  match m with
  | [] => (acc, true)
  | (q, n) :: m =>
      if mine q then
        match times (Z.to_nat n) (f q) ok acc with
        | (acc, true) => subscribe_all m mine f ok acc
        | (acc, false) => (acc, false)
        end
      else subscribe_all m mine f ok acc
  end.
(** coordinator.go:227-291: the map is walked in the order [m] happens to have *)
Definition coordinator_start (m : qmap) (ok : nat -> bool) : list sub * bool := subscribe_all m is_coordinator_queue coordinator_sub ok [].
(** worker.go:251-271 *)
Definition worker_start (id : string) (m : qmap) (ok : nat -> bool) : list sub * bool :=
  if ok 0%nat then subscribe_all m is_worker_queue (fun q => Some (q, HandleTask)) ok [(("x-" ++ id)%string, CancelTask)] else ([], false).

(* ------------------------------------------------------------------ *)
(** * Specification *)
(** who must handle the messages of the coordinator's queues *)
Definition duty : list sub :=
  [("pending", OnPending); ("started", OnStarted); ("completed", OnCompleted); ("error", OnError); ("heartbeat", OnHeartbeat);
   ("jobs", OnJob); ("logs", OnLogPart); ("progress", OnProgress); ("redeliveries", OnRedelivered)].
Definition role_dec : forall a b : role, {a = b} + {a <> b}. Proof. decide equality. Defined.
Definition sub_dec : forall a b : sub, {a = b} + {a <> b}. Proof. decide equality; [apply role_dec|apply string_dec]. Defined.
Definition how_many (s : sub) (l : list sub) : nat := count_occ sub_dec l s.
(** what the configuration asks for; 0 if it says nothing *)
Definition asked (m : qmap) (q : string) (n : Z) : Prop := In (q, n) m \/ (~ In q (map fst m) /\ n = 0).

(* ------------------------------------------------------------------ *)
(** * Proofs *)
Lemma qget_set : forall m q n p, qget (qset m q n) p = if String.eqb p q then n else qget m p.
Proof.
  intros m q n p. unfold qget. induction m as [|[q' n'] m IH]; cbn [qset find fst].
  - rewrite String.eqb_sym. destruct (String.eqb p q); reflexivity.
  - destruct (String.eqb_spec q' q) as [->|NE]; cbn [find fst].
    + rewrite (String.eqb_sym q p). destruct (String.eqb p q); reflexivity.
    + destruct (String.eqb_spec q' p) as [->|NE'].
      * destruct (String.eqb_spec p q); [congruence|reflexivity].
      * exact IH.
Qed.
Lemma qset_keys : forall m q n, NoDup (map fst m) -> NoDup (map fst (qset m q n)).
Proof.
  intros m q n. induction m as [|[q' n'] m IH]; cbn [qset map fst]; intros N; [repeat constructor; intros []|].
  inversion N as [|? ? N1 N2]; subst. destruct (String.eqb_spec q' q) as [->|NE]; cbn [map fst]; [constructor; assumption|].
  constructor; [|apply IH; exact N2]. intros H. apply N1. clear - H NE. induction m as [|[a b] m IH]; cbn [qset map fst] in *.
  - destruct H as [H|[]]. congruence.
  - destruct (String.eqb_spec a q) as [->|NE']; cbn [map fst] in *; [exact H|]. destruct H as [H|H]; [now left|right; auto].
Qed.
Lemma qget_in : forall m q n, NoDup (map fst m) -> In (q, n) m -> qget m q = n.
Proof.
  unfold qget. induction m as [|[q' n'] m IH]; intros q n N []; cbn [find fst map] in *; inversion N as [|? ? N1 N2]; subst.
  - injection H as <- <-. now rewrite String.eqb_refl.
  - destruct (String.eqb_spec q' q) as [->|NE]; [|apply IH; assumption]. exfalso. apply N1. apply in_map_iff. exists (q, n). auto.
Qed.
Lemma qget_notin : forall m q, ~ In q (map fst m) -> qget m q = 0.
Proof.
  unfold qget. induction m as [|[q' n'] m IH]; intros q N; [reflexivity|]. cbn [find fst map] in *.
  destruct (String.eqb_spec q' q) as [->|NE]; [exfalso; apply N; now left|]. apply IH. intros H. apply N. now right.
Qed.
Lemma asked_get : forall m q n, NoDup (map fst m) -> asked m q n -> qget m q = n.
Proof. intros m q n N [H|[H ->]]; [apply qget_in; assumption|apply qget_notin; assumption]. Qed.
(** the map after NewCoordinator *)
Lemma defaulted : forall l m q, qget (fold_left (fun m q => if qget m q <? 1 then qset m q 1 else m) l m) q =
  if existsb (String.eqb q) l then Z.max 1 (qget m q) else qget m q.
Proof.
  induction l as [|p l IH]; intros m q; [reflexivity|]. cbn [fold_left existsb]. rewrite IH.
  destruct (Z.ltb_spec (qget m p) 1) as [L|L].
  - rewrite qget_set. destruct (String.eqb_spec q p) as [->|NE]; cbn [orb]; [|reflexivity]. destruct (existsb _ l); lia.
  - destruct (String.eqb_spec q p) as [->|NE]; cbn [orb]; [|reflexivity]. destruct (existsb _ l); lia.
Qed.
Lemma defaulted_keys : forall l m, NoDup (map fst m) -> NoDup (map fst (fold_left (fun m q => if qget m q <? 1 then qset m q 1 else m) l m)).
Proof. induction l as [|p l IH]; intros m N; [exact N|]. cbn [fold_left]. apply IH. destruct (_ <? _); [apply qset_keys|]; exact N. Qed.

Lemma times_ok : forall n s ok acc r, times n s ok acc = (r, true) ->
  r = acc ++ match s with Some x => repeat x n | None => [] end.
Proof.
  induction n as [|n IH]; intros s ok acc r H; cbn [times] in H.
  - injection H as <-. destruct s; now rewrite app_nil_r.
  - destruct s as [x|].
    + destruct (ok (length acc)); [|discriminate]. apply IH in H. subst r. rewrite <- app_assoc. reflexivity.
    + apply IH in H. subst r. reflexivity.
Qed.
Lemma all_ok : forall m mine f ok acc r, subscribe_all m mine f ok acc = (r, true) ->
  r = acc ++ flat_map (fun p => if mine (fst p) then match f (fst p) with Some x => repeat x (Z.to_nat (snd p)) | None => [] end else []) m.
Proof.
  induction m as [|[q n] m IH]; intros mine f ok acc r H; cbn [subscribe_all flat_map fst snd] in *.
  - injection H as <-. now rewrite app_nil_r.
  - destruct (mine q); [|apply IH in H; exact H]. destruct (times _ _ ok acc) as [acc' [|]] eqn:T; [|discriminate].
    apply IH in H. apply times_ok in T. subst. now rewrite <- app_assoc.
Qed.
Lemma how_many_flat : forall (m : qmap) (g : string -> option sub) s q,
  NoDup (map fst m) -> (forall p, g p = Some s <-> p = q) ->
  how_many s (flat_map (fun p => match g (fst p) with Some x => repeat x (Z.to_nat (snd p)) | None => [] end) m) = Z.to_nat (qget m q).
Proof.
  intros m g s q N G. unfold how_many, qget. induction m as [|[p n] m IH]; [reflexivity|]. cbn [flat_map fst snd find map] in *.
  inversion N as [|? ? N1 N2]; subst. rewrite count_occ_app. destruct (String.eqb_spec p q) as [->|NE].
  - rewrite (proj2 (G q) eq_refl). rewrite count_occ_repeat_eq by reflexivity.
    assert (Z0 : count_occ sub_dec (flat_map (fun p => match g (fst p) with Some x => repeat x (Z.to_nat (snd p)) | None => [] end) m) s = 0%nat).
    { apply count_occ_not_In. intros H. apply in_flat_map in H. destruct H as ([p k] & Hp & H). cbn [fst snd] in H.
      destruct (g p) as [x|] eqn:E; [|contradiction]. apply repeat_spec in H. subst x. apply G in E. subst p. apply N1. apply in_map_iff. exists (q, k). auto. }
    rewrite Z0. lia.
  - rewrite IH by exact N2. destruct (g p) as [x|] eqn:E; [|reflexivity].
    rewrite count_occ_repeat_neq; [reflexivity|]. intros ->. apply NE. apply G. exact E.
Qed.

(** ** Every queue of the coordinator is served, as many times as configured, by the right handler *)
Theorem C64_coordinator_serves : forall m walk ok subs, NoDup (map fst m) ->
  Permutation walk (new_coordinator_queues m) -> coordinator_start walk ok = (subs, true) ->
  forall q h n, In (q, h) duty -> asked m q n -> Z.of_nat (how_many (q, h) subs) = Z.max 1 n.
Proof.
  intros m walk ok subs N P H q h n D A. unfold coordinator_start in H. apply all_ok in H. cbn [app] in H. subst subs.
  assert (NW : NoDup (map fst walk)). { apply (Permutation_NoDup (l := map fst (new_coordinator_queues m))); [apply Permutation_map; symmetry; exact P|]. apply defaulted_keys. exact N. }
  set (g := fun p => if is_coordinator_queue p then coordinator_sub p else None).
  assert (E : flat_map (fun p : string * Z => if is_coordinator_queue (fst p) then match coordinator_sub (fst p) with Some x => repeat x (Z.to_nat (snd p)) | None => [] end else []) walk =
    flat_map (fun p => match g (fst p) with Some x => repeat x (Z.to_nat (snd p)) | None => [] end) walk).
  { apply flat_map_ext. intros p. unfold g. destruct (is_coordinator_queue (fst p)); reflexivity. }
  rewrite E, (how_many_flat walk g (q, h) q NW).
  - assert (Q : qget walk q = Z.max 1 n).
    { rewrite <- (asked_get m q n N A).
      assert (EX : existsb (String.eqb q) ["completed"; "error"; "pending"; "started"; "heartbeat"; "jobs"; "logs"; "progress"; "redeliveries"] = true).
      { cbn in D. repeat destruct D as [D|D]; try contradiction; injection D as <- <-; reflexivity. }
      pose proof (defaulted ["completed"; "error"; "pending"; "started"; "heartbeat"; "jobs"; "logs"; "progress"; "redeliveries"] m q) as DF. rewrite EX in DF.
      rewrite <- DF. change (fold_left _ _ m) with (new_coordinator_queues m). 
      assert (I : In (q, qget (new_coordinator_queues m) q) walk).
      { apply (Permutation_in _ (Permutation_sym P)). unfold qget. destruct (find (fun p => String.eqb (fst p) q) (new_coordinator_queues m)) as [[q' n']|] eqn:F.
        - apply find_some in F. destruct F as [F1 F2]. cbn [fst] in F2. apply String.eqb_eq in F2. now subst q'.
        - exfalso. unfold new_coordinator_queues, qget in *. rewrite F in DF. lia. }
      apply qget_in; assumption. }
    rewrite Q. lia.
  - intros p. unfold g. cbn in D. split.
    + intros G. destruct (is_coordinator_queue p); [|discriminate]. unfold coordinator_sub in G.
      repeat match type of G with (if String.eqb p ?x then _ else _) = _ => destruct (String.eqb_spec p x) as [Ep|_]; [congruence|] end. discriminate.
    + intros ->. repeat destruct D as [D|D]; try contradiction; injection D as <- <-; reflexivity.
Qed.
Print Assumptions C64_coordinator_serves.

Lemma all_in : forall m mine f ok acc r b x, subscribe_all m mine f ok acc = (r, b) -> In x r ->
  In x acc \/ exists q, mine q = true /\ f q = Some x.
Proof.
  assert (T : forall n s ok acc r b x, times n s ok acc = (r, b) -> In x r -> In x acc \/ s = Some x).
  { induction n as [|n IH]; intros s ok acc r b x H HI; cbn [times] in H; [injection H as <- <-; now left|].
    destruct s as [y|]; [|apply (IH _ _ _ _ _ _ H HI)]. destruct (ok (length acc)).
    - destruct (IH _ _ _ _ _ _ H HI) as [HA|HA]; [|now right]. apply in_app_or in HA. destruct HA as [HA|[->|[]]]; auto.
    - injection H as <- <-. now left. }
  induction m as [|[q n] m IH]; intros mine f ok acc r b x H HI; cbn [subscribe_all] in H; [injection H as <- <-; now left|].
  destruct (mine q) eqn:M; [|apply (IH _ _ _ _ _ _ _ H HI)]. destruct (times _ _ ok acc) as [acc' [|]] eqn:E.
  - destruct (IH _ _ _ _ _ _ _ H HI) as [HA|HA]; [|now right]. destruct (T _ _ _ _ _ _ _ E HA) as [HB|HB]; [now left|]. right. exists q. auto.
  - injection H as <- <-. destruct (T _ _ _ _ _ _ _ E HI) as [HB|HB]; [now left|]. right. exists q. auto.
Qed.

(** ** Nobody consumes another's messages *)
(** Whatever is configured, and even when Start fails half-way: a coordinator subscribes only to its own queues, each with
    the handler due; a worker never subscribes to a queue of the coordinator, runs tasks only from queues it was configured
    for, and takes cancellations only from its own private queue. *)
Theorem C64_coordinator_only_its_own : forall walk ok subs b q h, coordinator_start walk ok = (subs, b) -> In (q, h) subs -> In (q, h) duty.
Proof.
  intros walk ok subs b q h H HI. destruct (all_in _ _ _ _ _ _ _ _ H HI) as [[]|(p & M & F)].
  unfold coordinator_sub in F. cbn [duty In].
  repeat match type of F with context [String.eqb p ?x] => destruct (String.eqb_spec p x) as [->|]; [injection F as <- <-; tauto|] end. discriminate.
Qed.
Print Assumptions C64_coordinator_only_its_own.

Theorem C64_worker_only_work : forall id m walk ok subs b q h, Permutation walk (new_worker_queues m) ->
  worker_start id walk ok = (subs, b) -> In (q, h) subs ->
  (h = CancelTask /\ q = ("x-" ++ id)%string) \/ (h = HandleTask /\ ~ In q (map fst duty)).
Proof.
  intros id m walk ok subs b q h P H HI. unfold worker_start in H. destruct (ok 0%nat); [|injection H as <- <-; contradiction].
  destruct (all_in _ _ _ _ _ _ _ _ H HI) as [[E|[]]|(p & M & F)].
  - injection E as <- <-. now left.
  - injection F as -> <-. right. split; [reflexivity|]. unfold is_worker_queue, is_coordinator_queue in M. apply negb_true_iff in M. intros HD.
    assert (existsb (String.eqb q) coordinator_queues = true); [|congruence]. apply existsb_exists. exists q. split; [exact HD|apply String.eqb_refl].
Qed.
Print Assumptions C64_worker_only_work.

(** A private queue is not one of the coordinator's, and two workers with different ids have different ones. *)
Theorem C64_private_queues : forall id id', ~ In ("x-" ++ id)%string (map fst duty) /\ (("x-" ++ id)%string = ("x-" ++ id')%string -> id = id').
Proof.
  intros id id'. split.
  - cbn. intros H. repeat destruct H as [H|H]; try contradiction; discriminate.
  - intros H. injection H as H. exact H.
Qed.
Print Assumptions C64_private_queues.

(** ** A worker runs as many tasks at once as configured *)
(** the number of subscriptions of a started worker to a work queue is the configured number; with no configuration at all
    it is one, to the default queue *)
Theorem C64_worker_concurrency : forall id m walk ok subs q n, NoDup (map fst m) -> Permutation walk (new_worker_queues m) ->
  worker_start id walk ok = (subs, true) -> ~ In q (map fst duty) ->
  (m <> [] -> asked m q n -> how_many (q, HandleTask) subs = Z.to_nat n) /\
  (m = [] -> how_many (q, HandleTask) subs = if String.eqb q "default" then 1%nat else 0%nat).
Proof.
  intros id m walk ok subs q n N P H D. unfold worker_start in H. destruct (ok 0%nat); [|discriminate].
  apply all_ok in H. subst subs.
  assert (NN : NoDup (map fst (new_worker_queues m))). { destruct m; [repeat constructor; intros []|exact N]. }
  assert (NW : NoDup (map fst walk)). { apply (Permutation_NoDup (l := map fst (new_worker_queues m))); [apply Permutation_map; symmetry; exact P|exact NN]. }
  set (g := fun p => if is_worker_queue p then Some (p, HandleTask) else None).
  assert (E : flat_map (fun p : string * Z => if is_worker_queue (fst p) then repeat (fst p, HandleTask) (Z.to_nat (snd p)) else []) walk =
    flat_map (fun p => match g (fst p) with Some x => repeat x (Z.to_nat (snd p)) | None => [] end) walk).
  { apply flat_map_ext. intros p. unfold g. destruct (is_worker_queue (fst p)); reflexivity. }
  assert (HM : how_many (q, HandleTask) ([(("x-" ++ id)%string, CancelTask)] ++ flat_map (fun p : string * Z => if is_worker_queue (fst p) then repeat (fst p, HandleTask) (Z.to_nat (snd p)) else []) walk) = Z.to_nat (qget (new_worker_queues m) q)).
  { unfold how_many. rewrite count_occ_app. cbn [count_occ]. destruct (sub_dec _ _) as [X|_]; [discriminate|]. cbn [Nat.add]. rewrite E.
    transitivity (Z.to_nat (qget walk q)); [apply (how_many_flat walk g (q, HandleTask) q NW)|].
    2: { f_equal. destruct (in_dec string_dec q (map fst walk)) as [I|I].
      + apply in_map_iff in I. destruct I as ([q' k] & EQ & I). cbn in EQ. subst q'. rewrite (qget_in walk q k NW I). symmetry. apply qget_in; [exact NN|]. apply (Permutation_in _ P I).
      + rewrite qget_notin by exact I. symmetry. apply qget_notin. intros HH. apply I. apply (Permutation_in _ (Permutation_sym (Permutation_map fst P)) HH). }
    intros p. unfold g. split; [destruct (is_worker_queue p); [congruence|discriminate]|]. intros ->.
      replace (is_worker_queue q) with true; [reflexivity|]. symmetry. unfold is_worker_queue, is_coordinator_queue. apply negb_true_iff.
      destruct (existsb _ _) eqn:X; [|reflexivity]. apply existsb_exists in X. destruct X as (x & X1 & X2). apply String.eqb_eq in X2. subst x. exfalso. exact (D X1). }
  split.
  - intros NE A. etransitivity; [exact HM|]. destruct m; [congruence|]. cbn [new_worker_queues]. now rewrite (asked_get _ _ _ N A).
  - intros ->. etransitivity; [exact HM|]. cbn [new_worker_queues]. unfold qget. cbn [find fst]. rewrite String.eqb_sym. destruct (String.eqb q "default"); reflexivity.
Qed.
Print Assumptions C64_worker_concurrency.

Example C64_nonvacuous :
  (let c := [("jobs", 3); ("default", 5); ("error", 0); ("pending", -2)] in
   let r := coordinator_start (new_coordinator_queues c) (fun _ => true) in
   snd r = true /\ how_many ("jobs", OnJob) (fst r) = 3%nat /\ how_many ("error", OnError) (fst r) = 1%nat /\
   how_many ("redeliveries", OnRedelivered) (fst r) = 1%nat /\ length (fst r) = 11%nat) /\
  (let r := worker_start "w1" (new_worker_queues [("gpu", 2); ("jobs", 4)]) (fun _ => true) in
   r = ([("x-w1", CancelTask); ("gpu", HandleTask); ("gpu", HandleTask)], true)) /\
  worker_start "w1" (new_worker_queues []) (fun _ => true) = ([("x-w1", CancelTask); ("default", HandleTask)], true).
Proof. vm_compute. repeat split; reflexivity. Qed.
