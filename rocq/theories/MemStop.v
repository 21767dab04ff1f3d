(** C95: stopping the in-memory broker.  broker/inmemory.go:27-75 (topics), 93-145 (queues: close, subscribe), 240-292
    (publish, Shutdown, events), 293-298 (HealthCheck); who calls it: internal/worker/worker.go:276-288,
    internal/coordinator/coordinator.go:339-351.
    Simplifications: messages are counted, not looked at (contents and order: InMemBroker.v, C38); finding or creating a
    queue or topic and using it is one step (the races: C38); DeleteQueue is left out (C38). *)
From Coq Require Import String List Bool Arith Lia.
From Verif Require Import Roles Rabbit.
Import ListNotations.
Open Scope string_scope.
Open Scope list_scope.

(* ------------------------------------------------------------------ *)
(** * Model *)
(** the goroutine of a subscription (127-144): in its select, in the handler, ended; [s_term]: its channel [terminate] is
    closed *)
Inductive place := Select | Busy | Ended.
Record sub := Sub { s_q : string; s_at : place; s_term : bool }.
(** the goroutine of a topic (43-57): in its select, calling the subscribers of an event, ended *)
Inductive tplace := TWait | TBusy | TEnded.
Record topic := Topic { t_name : string; t_at : tplace }.
(** the goroutine started by Shutdown (255-265): not started; these queues to visit; closing queue [q] - holding its lock -
    with these subscriptions to go (110-115); waiting for one (113); these topics to close; done *)
Inductive closer := NotYet | Queues (todo : list string) | Subs (q : string) (l : list nat) (rest : list string)
  | Await (i : nat) (q : string) (l : list nat) (rest : list string) | Topics (todo : list nat) | Finished.
(** the caller of Shutdown: not there, waiting in the select (266-269), returned (because the deadline passed or not) *)
Inductive caller := Away | Waiting | Returned (deadline : bool).
Record st := St { subs : list sub; tops : list topic; waiting : list string; known : list string; flag : bool; cl : closer; ca : caller }.
Definition empty : st := St [] [] [] [] false NotYet Away.
Definition CAP : nat := 1000.

Inductive act :=
| Subscribe (q : string) (seen : bool)   (* 170-179; [seen]: a key added to the map while Shutdown walks it may be visited *)
| Publish (q : string) (seen : bool)     (* 240-248 *)
| Take (i : nat)                         (* 133-134 *)
| Handled (i : nat)                      (* 135-140 *)
| Exit (i : nat)                         (* 130-132 *)
| SubscribeEv (n : string) (seen : bool) (* 273-282 *)
| Event (i : nat)                        (* 68-70: an event is handed to topic [i] *)
| EventDone (i : nat)                    (* 50-54 *)
| Shut                                   (* 250-253 *)
| Visit (q : string)                     (* 256-258, 107 *)
| Close                                  (* 111-112 *)
| Joined                                 (* 113 *)
| NextQueue                              (* 116 *)
| ToTopics                               (* 260 *)
| CloseTopic (i : nat)                   (* 72-75 *)
| Finish                                 (* 264, 268 *)
| Deadline.                              (* 267 *)

Fixpoint drop1 (q : string) (l : list string) : list string :=
  match l with [] => [] | x :: l => if String.eqb x q then l else x :: drop1 q l end.
Definition count (q : string) (l : list string) : nat := List.length (filter (String.eqb q) l).
Definition closing (c : closer) (q : string) : bool := match c with Subs p _ _ | Await _ p _ _ => String.eqb p q | _ => false end.
Definition is_known (q : string) (s : st) : bool := existsb (String.eqb q) (known s).
Definition more_queues (c : closer) (q : string) : closer :=
  match c with Queues t => Queues (q :: t) | Subs p l r => Subs p l (q :: r) | Await i p l r => Await i p l (q :: r) | c => c end.
Definition more_topics (c : closer) (i : nat) : closer := match c with Topics t => Topics (i :: t) | c => c end.
(** a queue found or created *)
Definition know (q : string) (seen : bool) (s : st) : st :=
  if is_known q s then s
  else St (subs s) (tops s) (waiting s) (q :: known s) (flag s) (if seen then more_queues (cl s) q else cl s) (ca s).
Definition set_subs (l : list sub) (s : st) : st := St l (tops s) (waiting s) (known s) (flag s) (cl s) (ca s).
Definition set_tops (l : list topic) (s : st) : st := St (subs s) l (waiting s) (known s) (flag s) (cl s) (ca s).
Definition set_waiting (l : list string) (s : st) : st := St (subs s) (tops s) l (known s) (flag s) (cl s) (ca s).
Definition set_cl (c : closer) (s : st) : st := St (subs s) (tops s) (waiting s) (known s) (flag s) c (ca s).
Definition set_ca (c : caller) (s : st) : st := St (subs s) (tops s) (waiting s) (known s) (flag s) (cl s) c.
Definition of_queue (q : string) (s : st) : list nat :=
  filter (fun i => match nth_error (subs s) i with Some x => String.eqb (s_q x) q | None => false end) (seq 0 (List.length (subs s))).

Definition step (s : st) (a : act) : option st :=
  match a with
  | Subscribe q seen => if closing (cl s) q then None (* q.mu is held *) else Some (let s := know q seen s in set_subs (subs s ++ [Sub q Select false]) s)
  | Publish q seen => if Nat.ltb (count q (waiting s)) CAP then Some (let s := know q seen s in set_waiting (waiting s ++ [q]) s) else None (* blocks *)
  | Take i => match nth_error (subs s) i with
              | Some x => match s_at x with
                          | Select => if Nat.ltb 0 (count (s_q x) (waiting s))
                                      then Some (set_waiting (drop1 (s_q x) (waiting s)) (set_subs (upd (subs s) i (Sub (s_q x) Busy (s_term x))) s)) else None
                          | _ => None end
              | None => None end
  | Handled i => match nth_error (subs s) i with
                 | Some x => match s_at x with Busy => Some (set_subs (upd (subs s) i (Sub (s_q x) Select (s_term x))) s) | _ => None end
                 | None => None end
  | Exit i => match nth_error (subs s) i with
              | Some x => match s_at x, s_term x with Select, true => Some (set_subs (upd (subs s) i (Sub (s_q x) Ended true)) s) | _, _ => None end
              | None => None end
  | SubscribeEv n seen => if existsb (fun t => String.eqb (t_name t) n) (tops s) then Some s
                          else Some (set_cl (if seen then more_topics (cl s) (List.length (tops s)) else cl s) (set_tops (tops s ++ [Topic n TWait]) s))
  | Event i => match nth_error (tops s) i with
               | Some t => match t_at t with TWait => Some (set_tops (upd (tops s) i (Topic (t_name t) TBusy)) s) | _ => None end
               | None => None end
  | EventDone i => match nth_error (tops s) i with
                   | Some t => match t_at t with TBusy => Some (set_tops (upd (tops s) i (Topic (t_name t) TWait)) s) | _ => None end
                   | None => None end
  | Shut => if flag s then Some s else Some (St (subs s) (tops s) (waiting s) (known s) true (Queues (known s)) Waiting)
  | Visit q => match cl s with
               | Queues t => if existsb (String.eqb q) t then Some (set_cl (Subs q (of_queue q s) (drop1 q t)) s) else None
               | _ => None end
  | Close => match cl s with
             | Subs q (i :: l) r => match nth_error (subs s) i with
                                    | Some x => Some (set_cl (if is_coordinator_queue q then Await i q l r else Subs q l r) (set_subs (upd (subs s) i (Sub (s_q x) (s_at x) true)) s))
                                    | None => None end
             | _ => None end
  | Joined => match cl s with
              | Await i q l r => match nth_error (subs s) i with
                                 | Some x => match s_at x with Ended => Some (set_cl (Subs q l r) s) | _ => None end
                                 | None => None end
              | _ => None end
  | NextQueue => match cl s with Subs q [] r => Some (set_cl (Queues r) s) | _ => None end
  | ToTopics => match cl s with Queues [] => Some (set_cl (Topics (seq 0 (List.length (tops s)))) s) | _ => None end
  | CloseTopic i => match cl s with
                    | Topics t => if existsb (Nat.eqb i) t then
                        match nth_error (tops s) i with
                        | Some x => match t_at x with
                                    | TWait => Some (set_cl (Topics (filter (fun j => negb (Nat.eqb j i)) t)) (set_tops (upd (tops s) i (Topic (t_name x) TEnded)) s))
                                    | _ => None end
                        | None => None end else None
                    | _ => None end
  | Finish => match cl s with
              | Topics [] => Some (set_ca (match ca s with Waiting => Returned false | c => c end) (set_cl Finished s))
              | _ => None end
  | Deadline => match ca s with Waiting => Some (set_ca (Returned true) s) | _ => None end
  end.
Fixpoint run (s : st) (l : list act) : option st :=
  match l with [] => Some s | a :: l => match step s a with Some s => run s l | None => None end end.
Definition reachable (s : st) : Prop := exists l, run empty l = Some s.
(** HealthCheck (293-298) *)
Definition healthy (s : st) : bool := negb (flag s).

(* ------------------------------------------------------------------ *)
(** * Specification *)
(** subscription [i] is one on queue [q], and where it is *)
Definition sub_at (s : st) (i : nat) (q : string) (p : place) : Prop := exists b, nth_error (subs s) i = Some (Sub q p b).
(** actions with which handlers end and Shutdown proceeds; nothing new comes in and no deadline passes *)
Definition winding_down (a : act) : Prop :=
  match a with Handled _ | Exit _ | EventDone _ | Visit _ | Close | Joined | NextQueue | ToTopics | CloseTopic _ | Finish => True | _ => False end.

(* ------------------------------------------------------------------ *)
(** * Proofs *)
Local Arguments is_coordinator_queue : simpl never.
Local Arguments CAP : simpl never.
Lemma run_app : forall l1 s l2, run s (l1 ++ l2) = match run s l1 with Some s' => run s' l2 | None => None end.
Proof. induction l1 as [|a l1 IH]; intros s l2; [reflexivity|]. cbn [app run]. destruct (step s a); [apply IH|reflexivity]. Qed.
Lemma know_subs q b s : subs (know q b s) = subs s.
Proof. unfold know. now destruct (is_known q s). Qed.
Lemma know_flag q b s : flag (know q b s) = flag s.
Proof. unfold know. now destruct (is_known q s). Qed.
Lemma know_tops q b s : tops (know q b s) = tops s.
Proof. unfold know. now destruct (is_known q s). Qed.
Lemma know_waiting q b s : waiting (know q b s) = waiting s.
Proof. unfold know. now destruct (is_known q s). Qed.
Lemma know_cl q b s : cl (know q b s) = cl s \/ cl (know q b s) = more_queues (cl s) q.
Proof. unfold know. destruct (is_known q s); [now left|]. destruct b; [now right|now left]. Qed.
Lemma upd_at {A} (l : list A) j (x x' y : A) i : nth_error l j = Some x -> nth_error l i = Some y ->
  nth_error (upd l j x') i = Some (if Nat.eqb i j then x' else y).
Proof.
  intros Hj Hi. destruct (Nat.eqb_spec i j) as [->|N]; [exact (nth_upd_same _ _ _ _ Hj)|]. rewrite nth_upd_other by congruence. exact Hi.
Qed.
Lemma app_at {A} (l r : list A) i y : nth_error l i = Some y -> nth_error (l ++ r) i = Some y.
Proof. intros H. rewrite nth_error_app1; [exact H|]. apply nth_error_Some. congruence. Qed.

(** what a step does to a subscription *)
Definition later (x y : sub) : Prop := s_q y = s_q x /\ (s_at x = Ended -> s_at y = Ended) /\ (s_term x = true -> s_term y = true) /\
  (s_at y = Ended -> s_at x = Ended \/ s_term y = true).
Lemma later_refl x : later x x. Proof. split; auto. Qed.
Lemma step_sub s a s' i x : step s a = Some s' -> nth_error (subs s) i = Some x ->
  exists y, nth_error (subs s') i = Some y /\ later x y /\ (s_at x = Ended -> a <> Take i).
Proof.
  intros H Hi.
  assert (K : forall y, subs s' = subs s -> nth_error (subs s) i = Some y -> (exists z, nth_error (subs s') i = Some z /\ later y z)).
  { intros y -> Hy. exists y. split; [exact Hy|apply later_refl]. }
  assert (K1 : (subs s' = subs s) -> (s_at x = Ended -> a <> Take i) -> exists y, nth_error (subs s') i = Some y /\ later x y /\ (s_at x = Ended -> a <> Take i)).
  { intros E N. destruct (K x E Hi) as (z & A & B). exists z. auto. }
  destruct a; cbn [step] in H.
  - destruct (closing _ _); [discriminate|]. injection H as <-. cbn [set_subs subs]. exists x. rewrite know_subs. split; [apply app_at; exact Hi|]. split; [apply later_refl|discriminate].
  - destruct (Nat.ltb _ _); [|discriminate]. injection H as <-. apply K1; [cbn; apply know_subs|discriminate].
  - destruct (nth_error (subs s) i0) as [z|] eqn:Hz; [|discriminate]. destruct (s_at z) eqn:Ez; try discriminate. destruct (Nat.ltb _ _); [|discriminate]. injection H as <-.
    cbn [set_subs set_waiting subs]. eexists. split; [eapply upd_at; eauto|]. destruct (Nat.eqb_spec i i0) as [->|N].
    + rewrite Hi in Hz. injection Hz as <-. split; [|congruence]. split; [reflexivity|]. split; [congruence|]. split; [auto|discriminate].
    + split; [apply later_refl|congruence].
  - destruct (nth_error (subs s) i0) as [z|] eqn:Hz; [|discriminate]. destruct (s_at z) eqn:Ez; try discriminate. injection H as <-.
    cbn [set_subs subs]. eexists. split; [eapply upd_at; eauto|]. split; [|discriminate]. destruct (Nat.eqb_spec i i0) as [->|N]; [|apply later_refl].
    rewrite Hi in Hz. injection Hz as <-. split; [reflexivity|]. split; [congruence|]. split; [auto|discriminate].
  - destruct (nth_error (subs s) i0) as [z|] eqn:Hz; [|discriminate]. destruct (s_at z) eqn:Ez; try discriminate. destruct (s_term z); [|discriminate]. injection H as <-.
    cbn [set_subs subs]. eexists. split; [eapply upd_at; eauto|]. split; [|discriminate]. destruct (Nat.eqb_spec i i0) as [->|N]; [|apply later_refl].
    rewrite Hi in Hz. injection Hz as <-. split; [reflexivity|]. split; [auto|]. split; auto.
  - destruct (existsb _ _); injection H as <-; apply K1; (reflexivity || discriminate).
  - destruct (nth_error (tops s) i0) as [z|]; [|discriminate]. destruct (t_at z); try discriminate. injection H as <-. apply K1; (reflexivity || discriminate).
  - destruct (nth_error (tops s) i0) as [z|]; [|discriminate]. destruct (t_at z); try discriminate. injection H as <-. apply K1; (reflexivity || discriminate).
  - destruct (flag s); injection H as <-; apply K1; (reflexivity || discriminate).
  - destruct (cl s); try discriminate. destruct (existsb _ _); [|discriminate]. injection H as <-. apply K1; (reflexivity || discriminate).
  - destruct (cl s) as [|?|q [|j l] r|?|?|]; try discriminate. destruct (nth_error (subs s) j) as [z|] eqn:Hz; [|discriminate]. injection H as <-.
    cbn [set_cl set_subs subs]. eexists. split; [eapply upd_at; eauto|]. split; [|discriminate]. destruct (Nat.eqb_spec i j) as [->|N]; [|apply later_refl].
    rewrite Hi in Hz. injection Hz as <-. split; [reflexivity|]. split; [auto|]. split; auto.
  - destruct (cl s); try discriminate. destruct (nth_error _ _) as [z|]; [|discriminate]. destruct (s_at z); try discriminate. injection H as <-. apply K1; (reflexivity || discriminate).
  - destruct (cl s) as [|?|q [|j l] r|?|?|]; try discriminate. injection H as <-. apply K1; (reflexivity || discriminate).
  - destruct (cl s) as [|[|]|q l r|?|?|]; try discriminate. injection H as <-. apply K1; (reflexivity || discriminate).
  - destruct (cl s); try discriminate. destruct (existsb _ _); [|discriminate]. destruct (nth_error _ _) as [z|]; [|discriminate]. destruct (t_at z); try discriminate. injection H as <-. apply K1; (reflexivity || discriminate).
  - destruct (cl s) as [|?|q l r|?|[|]|]; try discriminate. injection H as <-. apply K1; (reflexivity || discriminate).
  - destruct (ca s); try discriminate. injection H as <-. apply K1; (reflexivity || discriminate).
Qed.
Lemma step_flag s a s' : step s a = Some s' -> flag s = true -> flag s' = true.
Proof.
  intros H F. destruct a; cbn [step] in H;
    [..|rewrite F in H; injection H as <-; exact F| | | | | | | |];
    repeat match type of H with (match ?x with _ => _ end) = _ => destruct x; try discriminate end;
    try (injection H as <-; cbn; rewrite ?know_flag; first [assumption | reflexivity]).
Qed.

(** where Shutdown is as regards subscription [i] on queue [q]: to come, or told and (coordinator queues) gone *)
Definition to_come (c : closer) (i : nat) (q : string) : Prop :=
  match c with
  | Queues t => In q t
  | Subs p l r => (p = q /\ In i l) \/ In q r
  | Await j p l r => (p = q /\ (j = i \/ In i l)) \/ In q r
  | _ => False end.
Definition covered (s : st) (i : nat) (q : string) : Prop :=
  exists x, nth_error (subs s) i = Some x /\ s_q x = q /\ (s_at x = Ended -> s_term x = true) /\ (to_come (cl s) i q \/ (s_term x = true /\ (is_coordinator_queue q = true -> s_at x = Ended))).
Lemma to_come_more c i q p : to_come c i q -> to_come (more_queues c p) i q.
Proof. destruct c; cbn; tauto. Qed.
Lemma to_come_more_t c i q n : to_come c i q -> to_come (more_topics c n) i q.
Proof. destruct c; cbn; tauto. Qed.
Lemma in_drop1 q p l : In q l -> q <> p -> In q (drop1 p l).
Proof.
  induction l as [|x l IH]; intros H N; [destruct H|]. cbn. destruct H as [->|H].
  - destruct (String.eqb_spec q p); [contradiction|now left].
  - destruct (String.eqb x p); [exact H|right; auto].
Qed.
Lemma in_of_queue s i x : nth_error (subs s) i = Some x -> In i (of_queue (s_q x) s).
Proof.
  intros H. unfold of_queue. apply filter_In. split.
  - apply in_seq. split; [lia|]. apply nth_error_Some. congruence.
  - rewrite H. apply String.eqb_refl.
Qed.
Lemma step_covered s a s' i q : step s a = Some s' -> flag s = true -> covered s i q -> covered s' i q.
Proof.
  intros H F (x & Hx & Hq & T & C). pose proof (step_sub _ _ _ _ _ H Hx) as (y & Hy & (L1 & L2 & L3 & L4) & _).
  exists y. split; [exact Hy|]. split; [congruence|]. split; [intros E; destruct (L4 E); auto|]. destruct C as [C|[C1 C2]]; [|right; auto].
  destruct a; cbn [step] in H.
  - destruct (closing _ _); [discriminate|]. injection H as <-. left. cbn [set_subs cl]. destruct (know_cl q0 seen s) as [->| ->]; [exact C|apply to_come_more; exact C].
  - destruct (Nat.ltb _ _); [|discriminate]. injection H as <-. left. cbn [set_waiting cl]. destruct (know_cl q0 seen s) as [->| ->]; [exact C|apply to_come_more; exact C].
  - destruct (nth_error _ _) as [z|]; [|discriminate]. destruct (s_at z); try discriminate. destruct (Nat.ltb _ _); [|discriminate]. injection H as <-. left. exact C.
  - destruct (nth_error _ _) as [z|]; [|discriminate]. destruct (s_at z); try discriminate. injection H as <-. left. exact C.
  - destruct (nth_error _ _) as [z|]; [|discriminate]. destruct (s_at z); try discriminate. destruct (s_term z); [|discriminate]. injection H as <-. left. exact C.
  - destruct (existsb _ _); injection H as <-; left; [exact C|]. cbn [set_cl cl]. destruct seen; [apply to_come_more_t|]; exact C.
  - destruct (nth_error _ _) as [z|]; [|discriminate]. destruct (t_at z); try discriminate. injection H as <-. left. exact C.
  - destruct (nth_error _ _) as [z|]; [|discriminate]. destruct (t_at z); try discriminate. injection H as <-. left. exact C.
  - rewrite F in H. injection H as <-. left. exact C.
  - destruct (cl s) as [|t|?|?|?|]; try discriminate. destruct (existsb _ _); [|discriminate]. injection H as <-. left. cbn [set_cl cl to_come] in *.
    destruct (string_dec q q0) as [->|N]; [left; split; [reflexivity|rewrite <- Hq; now apply in_of_queue]|right; now apply in_drop1].
  - destruct (cl s) as [|?|p [|j l] r|?|?|]; try discriminate. destruct (nth_error (subs s) j) as [z|] eqn:Hz; [|discriminate]. injection H as <-.
    cbn [set_cl set_subs cl subs] in *. cbn [to_come] in C. destruct C as [[-> [->|C]]|C].
    + destruct (is_coordinator_queue q) eqn:Q; [left; cbn; auto|]. right. rewrite Hx in Hz. injection Hz as <-.
      rewrite (nth_upd_same _ _ _ _ Hx) in Hy. injection Hy as <-. split; [reflexivity|discriminate].
    + left. destruct (is_coordinator_queue q); cbn; auto.
    + left. destruct (is_coordinator_queue p); cbn; auto.
  - destruct (cl s) as [|?|?|j p l r|?|]; try discriminate. destruct (nth_error (subs s) j) as [z|] eqn:Hz; [|discriminate]. destruct (s_at z) eqn:Ez; try discriminate. injection H as <-.
    cbn [set_cl set_subs cl subs] in *. cbn [to_come] in *. destruct C as [[-> [->|C]]|C]; auto.
    right. rewrite Hx in Hz. injection Hz as <-. rewrite Hx in Hy. injection Hy as <-. split; [|auto].
    auto.
  - destruct (cl s) as [|?|p [|j l] r|?|?|]; try discriminate. injection H as <-. left. cbn [set_cl cl to_come In] in *. tauto.
  - destruct (cl s) as [|[|]|p l r|?|?|]; try discriminate. destruct C.
  - destruct (cl s); try discriminate. destruct C.
  - destruct (cl s); try discriminate. destruct C.
  - destruct (ca s); try discriminate. injection H as <-. left. exact C.
Qed.
Lemma run_covered l : forall s s' i q, run s l = Some s' -> flag s = true -> covered s i q -> covered s' i q.
Proof.
  induction l as [|a l IH]; intros s s' i q H F C; cbn [run] in H; [injection H as <-; exact C|].
  destruct (step s a) as [s1|] eqn:S; [|discriminate]. eapply IH; [exact H|eapply step_flag; eassumption|eapply step_covered; eassumption].
Qed.
Lemma run_sub l : forall s s' i x, run s l = Some s' -> nth_error (subs s) i = Some x ->
  exists y, nth_error (subs s') i = Some y /\ later x y /\ (s_at x = Ended -> ~ In (Take i) l).
Proof.
  induction l as [|a l IH]; intros s s' i x H Hx; cbn [run] in H; [injection H as <-; exists x; split; [exact Hx|split; [apply later_refl|intros _ []]]|].
  destruct (step s a) as [s1|] eqn:S; [|discriminate]. destruct (step_sub _ _ _ _ _ S Hx) as (y & Hy & (A1 & A2 & A3 & A4) & N).
  destruct (IH _ _ _ _ H Hy) as (z & Hz & (B1 & B2 & B3 & B4) & M). exists z. split; [exact Hz|]. split.
  - split; [congruence|]. split; [auto|]. split; [auto|]. intros E. destruct (B4 E) as [E'|E']; [|auto]. destruct (A4 E'); auto.
  - intros E [->|I]; [now apply N|]. apply M; auto.
Qed.

(** what holds throughout *)
Record ok (s : st) : Prop := {
  k_known : forall i x, nth_error (subs s) i = Some x -> In (s_q x) (known s);
  k_term : forall i x, nth_error (subs s) i = Some x -> s_at x = Ended -> s_term x = true;
  k_flag : flag s = false -> cl s = NotYet;
  k_flag' : flag s = true -> cl s <> NotYet;
  k_ca : ca s = Returned false -> cl s = Finished;
  k_subs : match cl s with
           | Subs _ l _ => forall i, In i l -> exists x, nth_error (subs s) i = Some x
           | Await j _ l _ => (forall i, In i l -> exists x, nth_error (subs s) i = Some x) /\ exists x, nth_error (subs s) j = Some x /\ s_term x = true
           | _ => True end;
  k_tops : match cl s with
           | Topics l => forall i, In i l -> exists t, nth_error (tops s) i = Some t /\ t_at t <> TEnded
           | Finished => True
           | _ => forall i t, nth_error (tops s) i = Some t -> t_at t <> TEnded end }.
Lemma ok_empty : ok empty.
Proof. constructor; try (intros [|i]; discriminate); try discriminate; try reflexivity; try exact I. Qed.
Lemma app_cases {A} (l : list A) y i x : nth_error (l ++ [y]) i = Some x -> nth_error l i = Some x \/ (i = List.length l /\ x = y).
Proof.
  intros H. destruct (Nat.lt_ge_cases i (List.length l)) as [L|L]; [left; now rewrite nth_error_app1 in H|].
  rewrite nth_error_app2 in H by exact L. destruct (i - List.length l) as [|n] eqn:E; [injection H as <-; right; split; [lia|reflexivity]|destruct n; discriminate].
Qed.
Lemma upd_cases {A} (l : list A) j y z i x : nth_error l j = Some z -> nth_error (upd l j y) i = Some x -> (i = j /\ x = y) \/ (i <> j /\ nth_error l i = Some x).
Proof.
  intros Hj H. destruct (Nat.eq_dec i j) as [->|N]; [left; rewrite (nth_upd_same _ _ _ _ Hj) in H; injection H as <-; auto|].
  right. rewrite nth_upd_other in H by congruence. auto.
Qed.
Lemma know_known q b s : In q (known (know q b s)) /\ incl (known s) (known (know q b s)).
Proof.
  unfold know. destruct (is_known q s) eqn:E; cbn.
  - split; [|apply incl_refl]. apply existsb_exists in E as (x & Hx & E). apply String.eqb_eq in E as ->. exact Hx.
  - split; [now left|]. intros x Hx. now right.
Qed.
Lemma know_ca q b s : ca (know q b s) = ca s.
Proof. unfold know. now destruct (is_known q s). Qed.
Lemma ok_frame s s' : ok s -> 
  (forall i y, nth_error (subs s') i = Some y -> In (s_q y) (known s') /\ (s_at y = Ended -> s_term y = true)) ->
  (forall i x, nth_error (subs s) i = Some x -> exists y, nth_error (subs s') i = Some y /\ (s_term x = true -> s_term y = true)) ->
  (forall i t, nth_error (tops s) i = Some t -> t_at t <> TEnded -> exists t', nth_error (tops s') i = Some t' /\ t_at t' <> TEnded) ->
  (forall i t, nth_error (tops s') i = Some t -> t_at t <> TEnded \/ exists t0, nth_error (tops s) i = Some t0 /\ t_at t0 = TEnded) ->
  flag s' = flag s -> ca s' = ca s ->
  (cl s' = cl s \/ (exists q, cl s' = more_queues (cl s) q) \/ (exists n t, cl s' = more_topics (cl s) n /\ nth_error (tops s') n = Some t /\ t_at t <> TEnded)) ->
  ok s'.
Proof.
  intros [K1 K2 K3 K4 K5 K6 K7] H1 H2 H3 H4 Hf Hc Hl. constructor.
  - intros i y Hy. now apply H1 with i.
  - intros i y Hy. now apply H1 with i.
  - rewrite Hf. intros E. apply K3 in E. rewrite E in Hl. destruct Hl as [->|[(q & ->)|(n & t & -> & _)]]; reflexivity.
  - rewrite Hf. intros E. apply K4 in E. destruct Hl as [->|[(q & ->)|(n & t & -> & _)]]; destruct (cl s); cbn; congruence.
  - rewrite Hc. intros E. apply K5 in E. rewrite E in Hl. destruct Hl as [->|[(q & ->)|(n & t & -> & _)]]; reflexivity.
  - assert (X : forall i x, nth_error (subs s) i = Some x -> exists y, nth_error (subs s') i = Some y) by (intros i x Hx; destruct (H2 i x Hx) as (y & Hy & _); eauto).
    assert (G : match cl s with
                | Subs _ l _ => forall i, In i l -> exists x, nth_error (subs s') i = Some x
                | Await j _ l _ => (forall i, In i l -> exists x, nth_error (subs s') i = Some x) /\ exists x, nth_error (subs s') j = Some x /\ s_term x = true
                | _ => True end).
    { destruct (cl s); try exact I.
      - intros i Hi. destruct (K6 i Hi) as (x & Hx). eauto.
      - destruct K6 as [A (x & B & C)]. split; [intros i' Hi; destruct (A i' Hi) as (z & Hz); eauto|]. destruct (H2 _ _ B) as (y & Hy & T). eauto. }
    destruct Hl as [->|[(q & ->)|(n & t & -> & _)]]; destruct (cl s); exact G.
  - assert (Q : (forall i t, nth_error (tops s) i = Some t -> t_at t <> TEnded) -> forall i t, nth_error (tops s') i = Some t -> t_at t <> TEnded).
    { intros A i t Ht. destruct (H4 i t Ht) as [B|(t0 & B & C)]; [exact B|]. exfalso. exact (A _ _ B C). }
    assert (R : forall l, (forall i, In i l -> exists t, nth_error (tops s) i = Some t /\ t_at t <> TEnded) -> forall i, In i l -> exists t, nth_error (tops s') i = Some t /\ t_at t <> TEnded).
    { intros l A i Hi. destruct (A i Hi) as (t & B & C). exact (H3 i t B C). }
    destruct Hl as [->|[(q & ->)|(n & t & -> & Ht & Hn)]]; destruct (cl s); cbn; try exact I; try exact (Q K7); try exact (R _ K7).
    intros i [<-|Hi]; [eauto|]. exact (R _ K7 i Hi).
Qed.
Lemma step_ok s a s' : ok s -> step s a = Some s' -> ok s'.
Proof.
  intros K H. pose proof K as [K1 K2 K3 K4 K5 K6 K7].
  assert (T1 : forall i t, nth_error (tops s) i = Some t -> t_at t <> TEnded -> exists t', nth_error (tops s) i = Some t' /\ t_at t' <> TEnded) by eauto.
  assert (T2 : forall i t, nth_error (tops s) i = Some t -> t_at t <> TEnded \/ exists t0, nth_error (tops s) i = Some t0 /\ t_at t0 = TEnded).
  { intros i t Ht. destruct (t_at t) eqn:E; [left; congruence|left; congruence|right; eauto]. }
  assert (S1 : forall i y, nth_error (subs s) i = Some y -> In (s_q y) (known s) /\ (s_at y = Ended -> s_term y = true)) by (intros; split; eauto).
  assert (S2 : forall i x, nth_error (subs s) i = Some x -> exists y, nth_error (subs s) i = Some y /\ (s_term x = true -> s_term y = true)) by eauto.
  (* one subscription replaced *)
  assert (U : forall j z y, nth_error (subs s) j = Some z -> s_q y = s_q z -> (s_at y = Ended -> s_term y = true) -> (s_term z = true -> s_term y = true) ->
     (forall i y', nth_error (upd (subs s) j y) i = Some y' -> In (s_q y') (known s) /\ (s_at y' = Ended -> s_term y' = true)) /\
     (forall i x, nth_error (subs s) i = Some x -> exists y', nth_error (upd (subs s) j y) i = Some y' /\ (s_term x = true -> s_term y' = true))).
  { intros j z y Hz Hq He Ht. split.
    - intros i y' Hi. destruct (upd_cases _ _ _ _ _ _ Hz Hi) as [[-> ->]|[_ Hi']]; [|eauto]. split; [rewrite Hq; eauto|exact He].
    - intros i x Hi. eexists. split; [eapply upd_at; eauto|]. destruct (Nat.eqb_spec i j) as [->|N]; [|auto]. intros E. apply Ht. congruence. }
  assert (V : forall j z y, nth_error (tops s) j = Some z -> t_at z <> TEnded -> t_at y <> TEnded ->
     (forall i t, nth_error (tops s) i = Some t -> t_at t <> TEnded -> exists t', nth_error (upd (tops s) j y) i = Some t' /\ t_at t' <> TEnded) /\
     (forall i t, nth_error (upd (tops s) j y) i = Some t -> t_at t <> TEnded \/ exists t0, nth_error (tops s) i = Some t0 /\ t_at t0 = TEnded)).
  { intros j z y Hz He Hy. split.
    - intros i t Hi E. eexists. split; [eapply upd_at; eauto|]. destruct (Nat.eqb i j); assumption.
    - intros i t Hi. destruct (upd_cases _ _ _ _ _ _ Hz Hi) as [[-> ->]|[_ Hi']]; [auto|eauto]. }
  destruct a; cbn [step] in H.
  - destruct (closing _ _); [discriminate|]. injection H as <-. destruct (know_known q seen s) as [N1 N2].
    apply (ok_frame s); auto; cbn [set_subs subs tops known flag cl ca]; rewrite ?know_subs, ?know_tops, ?know_flag, ?know_ca; auto.
    + intros i y Hy. destruct (app_cases _ _ _ _ Hy) as [Hy'|[_ ->]]; [split; [apply N2; eauto|eauto]|]. split; [exact N1|discriminate].
    + intros i x Hx. exists x. split; [now apply app_at|auto].
    + destruct (know_cl q seen s) as [E|E]; [left; exact E|right; left; eauto].
  - destruct (Nat.ltb _ _); [|discriminate]. injection H as <-. destruct (know_known q seen s) as [N1 N2].
    apply (ok_frame s); auto; cbn [set_waiting subs tops known flag cl ca]; rewrite ?know_subs, ?know_tops, ?know_flag, ?know_ca; auto.
    + intros i y Hy. split; [apply N2; eauto|eauto].
    + destruct (know_cl q seen s) as [E|E]; [left; exact E|right; left; eauto].
  - destruct (nth_error (subs s) i) as [z|] eqn:Hz; [|discriminate]. destruct (s_at z) eqn:Ez; try discriminate. destruct (Nat.ltb _ _); [|discriminate]. injection H as <-.
    destruct (U i z (Sub (s_q z) Busy (s_term z)) Hz eq_refl) as [U1 U2]; [discriminate|auto|]. apply (ok_frame s); auto.
  - destruct (nth_error (subs s) i) as [z|] eqn:Hz; [|discriminate]. destruct (s_at z) eqn:Ez; try discriminate. injection H as <-.
    destruct (U i z (Sub (s_q z) Select (s_term z)) Hz eq_refl) as [U1 U2]; [discriminate|auto|]. apply (ok_frame s); auto.
  - destruct (nth_error (subs s) i) as [z|] eqn:Hz; [|discriminate]. destruct (s_at z) eqn:Ez; try discriminate. destruct (s_term z) eqn:Tz; [|discriminate]. injection H as <-.
    destruct (U i z (Sub (s_q z) Ended true) Hz eq_refl) as [U1 U2]; [auto|auto|]. apply (ok_frame s); auto.
  - destruct (existsb _ _); injection H as <-; [exact K|].
    apply (ok_frame s); auto; cbn [set_cl set_tops subs tops known flag cl ca]; auto.
    + intros i t Ht E. exists t. split; [now apply app_at|exact E].
    + intros i t Ht. destruct (app_cases _ _ _ _ Ht) as [Ht'|[_ ->]]; [auto|left; discriminate].
    + destruct seen; [|now left]. right. right. exists (List.length (tops s)), (Topic n TWait). split; [reflexivity|]. split; [|discriminate].
      rewrite nth_error_app2, Nat.sub_diag by lia. reflexivity.
  - destruct (nth_error (tops s) i) as [z|] eqn:Hz; [|discriminate]. destruct (t_at z) eqn:Ez; try discriminate. injection H as <-.
    destruct (V i z (Topic (t_name z) TBusy) Hz) as [V1 V2]; [congruence|discriminate|]. apply (ok_frame s); auto.
  - destruct (nth_error (tops s) i) as [z|] eqn:Hz; [|discriminate]. destruct (t_at z) eqn:Ez; try discriminate. injection H as <-.
    destruct (V i z (Topic (t_name z) TWait) Hz) as [V1 V2]; [congruence|discriminate|]. apply (ok_frame s); auto.
  - destruct (flag s) eqn:F; injection H as <-; [exact K|]. specialize (K3 eq_refl). rewrite K3 in K7. constructor; cbn; auto; discriminate.
  - destruct (cl s) as [|t|?|?|?|] eqn:C; try discriminate. destruct (existsb _ _); [|discriminate]. injection H as <-.
    constructor; cbn [set_cl subs tops known flag cl ca]; auto; try discriminate.
    + intros E. apply K3 in E. discriminate.
    + intros E. apply K5 in E. discriminate.
    + intros i Hi. apply filter_In in Hi as [_ Hi]. destruct (nth_error (subs s) i) as [x|]; [eauto|discriminate].
  - destruct (cl s) as [|?|p [|j l] r|?|?|] eqn:C; try discriminate. destruct (nth_error (subs s) j) as [z|] eqn:Hz; [|discriminate]. injection H as <-.
    destruct (U j z (Sub (s_q z) (s_at z) true) Hz eq_refl) as [U1 U2]; [auto|auto|].
    assert (L : forall i, In i l -> exists x, nth_error (upd (subs s) j (Sub (s_q z) (s_at z) true)) i = Some x).
    { intros i Hi. destruct (K6 i (or_intror Hi)) as (x & Hx). destruct (U2 i x Hx) as (y & Hy & _). eauto. }
    constructor; cbn [set_cl set_subs subs tops known flag cl ca].
    + intros i x Hx. now apply U1 in Hx.
    + intros i x Hx. now apply U1 in Hx.
    + intros E. apply K3 in E. discriminate.
    + intros _. destruct (is_coordinator_queue p); discriminate.
    + intros E. apply K5 in E. discriminate.
    + destruct (is_coordinator_queue p); [|exact L]. split; [exact L|]. eexists. split; [eapply nth_upd_same; exact Hz|reflexivity].
    + destruct (is_coordinator_queue p); exact K7.
  - destruct (cl s) as [|?|?|j p l r|?|] eqn:C; try discriminate. destruct (nth_error (subs s) j) as [z|] eqn:Hz; [|discriminate]. destruct (s_at z) eqn:Ez; try discriminate. injection H as <-.
    constructor; cbn [set_cl subs tops known flag cl ca]; auto; try discriminate.
    + intros E. apply K3 in E. discriminate.
    + intros E. apply K5 in E. discriminate.
    + apply K6.
  - destruct (cl s) as [|?|p [|j l] r|?|?|] eqn:C; try discriminate. injection H as <-.
    constructor; cbn [set_cl subs tops known flag cl ca]; auto; try discriminate.
    + intros E. apply K3 in E. discriminate.
    + intros E. apply K5 in E. discriminate.
  - destruct (cl s) as [|[|]|p l r|?|?|] eqn:C; try discriminate. injection H as <-.
    constructor; cbn [set_cl subs tops known flag cl ca]; auto; try discriminate.
    + intros E. apply K3 in E. discriminate.
    + intros E. apply K5 in E. discriminate.
    + intros i Hi. apply in_seq in Hi. destruct (nth_error (tops s) i) as [t|] eqn:Ht; [|apply nth_error_None in Ht; lia]. exists t. split; [reflexivity|eauto].
  - destruct (cl s) as [|?|?|?|l|] eqn:C; try discriminate. destruct (existsb _ _) eqn:X; [|discriminate]. destruct (nth_error (tops s) i) as [z|] eqn:Hz; [|discriminate]. destruct (t_at z) eqn:Ez; try discriminate. injection H as <-.
    constructor; cbn [set_cl set_tops subs tops known flag cl ca]; auto; try discriminate.
    + intros E. apply K3 in E. discriminate.
    + intros E. apply K5 in E. discriminate.
    + intros j Hj. apply filter_In in Hj as [Hj N]. apply negb_true_iff, Nat.eqb_neq in N. rewrite nth_upd_other by congruence. auto.
  - destruct (cl s) as [|?|?|?|[|]|] eqn:C; try discriminate. injection H as <-.
    constructor; cbn [set_ca set_cl subs tops known flag cl ca]; auto; try discriminate.
    intros E. apply K3 in E. discriminate.
  - destruct (ca s) eqn:C; try discriminate. injection H as <-. constructor; cbn [set_ca subs tops known flag cl ca]; auto; discriminate.
Qed.
Lemma run_ok l : forall s s', ok s -> run s l = Some s' -> ok s'.
Proof.
  induction l as [|a l IH]; intros s s' K H; cbn [run] in H; [injection H as <-; exact K|].
  destruct (step s a) as [s1|] eqn:S; [|discriminate]. exact (IH _ _ (step_ok _ _ _ K S) H).
Qed.
Lemma reachable_ok s : reachable s -> ok s.
Proof. intros (l & H). exact (run_ok _ _ _ ok_empty H). Qed.

(** Whatever happens meanwhile: once Shutdown is through (not timed out), every subscription there was when it was called
    has been told to end; those on the coordinator's queues have ended, and whatever happens later they are given nothing
    any more. *)
Theorem C95_stopped_handlers : forall l1 s1 l2 s2 l3 s3 i x,
  run empty l1 = Some s1 -> flag s1 = false -> run s1 (Shut :: l2) = Some s2 -> cl s2 = Finished ->
  nth_error (subs s1) i = Some x -> run s2 l3 = Some s3 ->
  exists y, nth_error (subs s3) i = Some y /\ s_q y = s_q x /\ s_term y = true /\
    (is_coordinator_queue (s_q x) = true -> s_at y = Ended /\ ~ In (Take i) l3).
Proof.
  intros l1 s1 l2 s2 l3 s3 i x R1 F R2 C Hx R3.
  assert (K1 : ok s1) by (apply reachable_ok; exists l1; exact R1). destruct K1 as [K1 K2 _ _ _ _ _].
  cbn [run step] in R2. rewrite F in R2.
  assert (Cov : covered s2 i (s_q x)).
  { eapply run_covered; [exact R2|reflexivity|]. exists x. split; [exact Hx|]. split; [reflexivity|]. split; [eauto|]. left. cbn. eauto. }
  destruct Cov as (y & Hy & Q & _ & [Z|[T E]]); [rewrite C in Z; destruct Z|].
  destruct (run_sub _ _ _ _ _ R3 Hy) as (z & Hz & (L1 & L2 & L3 & L4) & N).
  exists z. split; [exact Hz|]. split; [congruence|]. split; [auto|]. intros HQ. split; [auto|]. apply N. auto.
Qed.
Print Assumptions C95_stopped_handlers.

(** Shutdown does not wait for ever: its caller goes when the deadline passes, whatever the rest is doing; a call that is
    not the first one changes nothing and does not wait at all; the caller that was not sent away by the deadline leaves
    when everything has been closed; and the health check reports failure from the first call on. *)
Theorem C95_returns : forall l s, run empty l = Some s ->
  (ca s = Waiting -> exists s', step s Deadline = Some s' /\ ca s' = Returned true) /\
  (In Shut l -> step s Shut = Some s) /\
  (ca s = Returned false -> cl s = Finished) /\
  (healthy s = false <-> In Shut l).
Proof.
  intros l s R.
  assert (FL : flag s = true <-> In Shut l).
  { assert (G : forall l s0 s, run s0 l = Some s -> (flag s = true <-> flag s0 = true \/ In Shut l)).
    { clear. induction l as [|a l IH]; intros s0 s R; cbn [run] in R; [injection R as <-; cbn; tauto|].
      destruct (step s0 a) as [s1|] eqn:S; [|discriminate]. rewrite (IH _ _ R). cbn [In].
      assert (X : flag s1 = true <-> flag s0 = true \/ a = Shut).
      { split.
        - intros E. destruct (flag s0) eqn:F; [now left|]. right. clear IH R.
          destruct a; cbn [step] in S; try reflexivity; exfalso;
            repeat match type of S with (match ?x with _ => _ end) = _ => destruct x; try discriminate end;
            try (injection S as <-; cbn in E; rewrite ?know_flag in E; congruence).
        - intros [F| ->]; [eapply step_flag; eauto|]. cbn [step] in S. destruct (flag s0) eqn:F; injection S as <-; [exact F|reflexivity]. }
      rewrite X. intuition congruence. }
    rewrite (G _ _ _ R). cbn. intuition discriminate. }
  split; [|split; [|split]].
  - intros W. cbn [step]. rewrite W. eexists. split; reflexivity.
  - intros H. apply FL in H. cbn [step]. now rewrite H.
  - apply reachable_ok. exists l. exact R.
  - unfold healthy. rewrite <- FL. destruct (flag s); cbn; intuition congruence.
Qed.
Print Assumptions C95_returns.

(** ** It gets there *)
Lemma fin_app s l1 s1 l2 s2 : run s l1 = Some s1 -> run s1 l2 = Some s2 -> run s (l1 ++ l2) = Some s2.
Proof. intros H1 H2. now rewrite run_app, H1. Qed.
Lemma fin_await s i q l r : ok s -> cl s = Await i q l r -> exists w s', Forall winding_down w /\ run s w = Some s' /\ cl s' = Subs q l r.
Proof.
  intros [_ _ _ _ _ K _] C. rewrite C in K. destruct K as [_ (x & Hx & T)].
  assert (G : forall s0 x0, cl s0 = Await i q l r -> nth_error (subs s0) i = Some x0 -> s_at x0 = Ended -> exists w s', Forall winding_down w /\ run s0 w = Some s' /\ cl s' = Subs q l r).
  { intros s0 x0 C0 H0 E0. exists [Joined]. eexists. split; [repeat constructor|]. cbn [run step]. rewrite C0, H0, E0. split; reflexivity. }
  assert (G2 : forall s0 x0, cl s0 = Await i q l r -> nth_error (subs s0) i = Some x0 -> s_at x0 = Select -> s_term x0 = true -> exists w s', Forall winding_down w /\ run s0 w = Some s' /\ cl s' = Subs q l r).
  { intros s0 x0 C0 H0 E0 T0. pose (s1 := set_subs (upd (subs s0) i (Sub (s_q x0) Ended true)) s0).
    destruct (G s1 (Sub (s_q x0) Ended true) C0) as (w & s' & F & R & E); [exact (nth_upd_same _ _ _ _ H0)|reflexivity|].
    exists (Exit i :: w), s'. split; [constructor; [exact I|exact F]|]. cbn [run step]. rewrite H0, E0, T0. auto. }
  destruct (s_at x) eqn:E; [eauto| |eauto].
  pose (s1 := set_subs (upd (subs s) i (Sub (s_q x) Select (s_term x))) s).
  destruct (G2 s1 (Sub (s_q x) Select (s_term x)) C) as (w & s' & F & R & E'); [exact (nth_upd_same _ _ _ _ Hx)|reflexivity|exact T|].
  exists (Handled i :: w), s'. split; [constructor; [exact I|exact F]|]. cbn [run step]. rewrite Hx, E. auto.
Qed.
Lemma fin_subs l : forall s q r, ok s -> cl s = Subs q l r -> exists w s', Forall winding_down w /\ run s w = Some s' /\ cl s' = Queues r.
Proof.
  induction l as [|i l IH]; intros s q r K C.
  - exists [NextQueue]. eexists. split; [repeat constructor|]. cbn [run step]. rewrite C. split; reflexivity.
  - pose proof (k_subs s K) as KS. rewrite C in KS. destruct (KS i (or_introl eq_refl)) as (x & Hx).
    assert (S : step s Close = Some (set_cl (if is_coordinator_queue q then Await i q l r else Subs q l r) (set_subs (upd (subs s) i (Sub (s_q x) (s_at x) true)) s))).
    { cbn [step]. now rewrite C, Hx. }
    pose proof (step_ok _ _ _ K S) as K1. set (s1 := set_cl _ _) in *.
    assert (M : exists w s2, Forall winding_down w /\ run s1 w = Some s2 /\ cl s2 = Subs q l r).
    { destruct (is_coordinator_queue q) eqn:Q; [apply fin_await with i; [exact K1|reflexivity]|]. exists [], s1. split; [constructor|]. split; reflexivity. }
    destruct M as (w & s2 & F & R & C2). pose proof (run_ok _ _ _ K1 R) as K2. destruct (IH _ _ _ K2 C2) as (w' & s3 & F' & R' & C3).
    exists (Close :: w ++ w'), s3. split; [constructor; [exact I|now apply Forall_app]|]. split; [|exact C3]. cbn [run]. rewrite S. eapply fin_app; eauto.
Qed.
Lemma filter_len (l : list nat) i : List.length (filter (fun j => negb (Nat.eqb j i)) l) <= List.length l.
Proof. induction l as [|x l IH]; cbn; [lia|]. destruct (negb _); cbn; lia. Qed.
Lemma fin_topics n : forall s l, List.length l <= n -> ok s -> cl s = Topics l -> exists w s', Forall winding_down w /\ run s w = Some s' /\ cl s' = Finished.
Proof.
  induction n as [|n IH]; intros s l L K C.
  - destruct l; [|cbn in L; lia]. exists [Finish]. eexists. split; [repeat constructor|]. cbn [run step]. rewrite C. split; reflexivity.
  - destruct l as [|i l]; [exists [Finish]; eexists; split; [repeat constructor|]; cbn [run step]; rewrite C; split; reflexivity|].
    pose proof (k_tops s K) as KT. rewrite C in KT. destruct (KT i (or_introl eq_refl)) as (t & Ht & Nt).
    assert (G : forall s0 t0, ok s0 -> cl s0 = Topics (i :: l) -> nth_error (tops s0) i = Some t0 -> t_at t0 = TWait -> exists w s', Forall winding_down w /\ run s0 w = Some s' /\ cl s' = Finished).
    { intros s0 t0 K0 C0 H0 E0. 
      assert (S : step s0 (CloseTopic i) = Some (set_cl (Topics (filter (fun j => negb (Nat.eqb j i)) (i :: l))) (set_tops (upd (tops s0) i (Topic (t_name t0) TEnded)) s0))).
      { cbn [step]. rewrite C0. cbn [existsb]. rewrite Nat.eqb_refl. cbn [orb]. now rewrite H0, E0. }
      pose proof (step_ok _ _ _ K0 S) as K1. set (s1 := set_cl _ _) in *.
      destruct (IH s1 (filter (fun j => negb (Nat.eqb j i)) (i :: l))) as (w & s2 & F & R & C2); [|exact K1|reflexivity|].
      - cbn [filter]. rewrite Nat.eqb_refl. cbn [negb]. pose proof (filter_len l i). cbn in L. lia.
      - exists (CloseTopic i :: w), s2. split; [constructor; [exact I|exact F]|]. cbn [run]. rewrite S. auto. }
    destruct (t_at t) eqn:E; [eauto| |congruence].
    assert (S : step s (EventDone i) = Some (set_tops (upd (tops s) i (Topic (t_name t) TWait)) s)) by (cbn [step]; now rewrite Ht, E).
    destruct (G _ (Topic (t_name t) TWait) (step_ok _ _ _ K S) C) as (w & s' & F & R & C'); [exact (nth_upd_same _ _ _ _ Ht)|reflexivity|].
    exists (EventDone i :: w), s'. split; [constructor; [exact I|exact F]|]. cbn [run]. rewrite S. auto.
Qed.
Lemma fin_queues n : forall s l, List.length l <= n -> ok s -> cl s = Queues l -> exists w s', Forall winding_down w /\ run s w = Some s' /\ cl s' = Finished.
Proof.
  assert (Z : forall s, ok s -> cl s = Queues [] -> exists w s', Forall winding_down w /\ run s w = Some s' /\ cl s' = Finished).
  { intros s K C. assert (S : step s ToTopics = Some (set_cl (Topics (seq 0 (List.length (tops s)))) s)) by (cbn [step]; now rewrite C).
    destruct (fin_topics _ _ _ (le_n _) (step_ok _ _ _ K S) eq_refl) as (w & s' & F & R & E). exists (ToTopics :: w), s'.
    split; [constructor; [exact I|exact F]|]. cbn [run]. rewrite S. auto. }
  induction n as [|n IH]; intros s l L K C; [destruct l; [auto|cbn in L; lia]|]. destruct l as [|q l]; [auto|].
  assert (S : step s (Visit q) = Some (set_cl (Subs q (of_queue q s) l) s)).
  { cbn [step]. rewrite C. cbn [existsb drop1]. rewrite String.eqb_refl. reflexivity. }
  pose proof (step_ok _ _ _ K S) as K1. destruct (fin_subs _ _ _ _ K1 eq_refl) as (w & s2 & F & R & C2).
  pose proof (run_ok _ _ _ K1 R) as K2. destruct (IH s2 l) as (w' & s3 & F' & R' & C3); [cbn in L; lia|exact K2|exact C2|].
  exists (Visit q :: w ++ w'), s3. split; [constructor; [exact I|now apply Forall_app]|]. split; [|exact C3]. cbn [run]. rewrite S. eapply fin_app; eauto.
Qed.
(** Whatever the moment, however many messages wait: if nothing new comes in and the handlers that are running end, Shutdown
    gets through - it never waits for anything but those handlers. *)
Theorem C95_finishes_when_handlers_do : forall s, reachable s -> flag s = true ->
  exists l s', Forall winding_down l /\ run s l = Some s' /\ cl s' = Finished.
Proof.
  intros s R F. apply reachable_ok in R as K. destruct (cl s) as [|t|q l r|i q l r|t|] eqn:C.
  - destruct (k_flag' s K F C).
  - eapply fin_queues; eauto.
  - destruct (fin_subs _ _ _ _ K C) as (w & s1 & F1 & R1 & C1). destruct (fin_queues _ _ _ (le_n _) (run_ok _ _ _ K R1) C1) as (w' & s2 & F2 & R2 & C2).
    exists (w ++ w'), s2. split; [now apply Forall_app|]. split; [eapply fin_app; eauto|exact C2].
  - destruct (fin_await _ _ _ _ _ K C) as (w0 & s0 & F0 & R0 & C0). pose proof (run_ok _ _ _ K R0) as K0.
    destruct (fin_subs _ _ _ _ K0 C0) as (w & s1 & F1 & R1 & C1). destruct (fin_queues _ _ _ (le_n _) (run_ok _ _ _ K0 R1) C1) as (w' & s2 & F2 & R2 & C2).
    exists (w0 ++ w ++ w'), s2. split; [repeat (apply Forall_app; split; try assumption)|]. split; [eapply fin_app; [eauto|eapply fin_app; eauto]|exact C2].
  - eapply fin_topics; eauto.
  - exists [], s. split; [constructor|]. split; [reflexivity|exact C].
Qed.
Print Assumptions C95_finishes_when_handlers_do.

(* ------------------------------------------------------------------ *)
(** * What does not hold *)
(** A topic that has been closed: nobody can publish an event to it any more - whoever tries waits for ever. *)
Definition tcovered (s : st) (i : nat) : Prop :=
  exists t, nth_error (tops s) i = Some t /\ match cl s with Topics l => In i l \/ t_at t = TEnded | Finished => t_at t = TEnded | _ => True end.
Lemma step_top s a s' i t : step s a = Some s' -> nth_error (tops s) i = Some t -> 
  exists t', nth_error (tops s') i = Some t' /\ (t_at t = TEnded -> t_at t' = TEnded /\ a <> Event i).
Proof.
  intros H Ht. assert (K : tops s' = tops s -> (forall j, a <> Event j) -> exists t', nth_error (tops s') i = Some t' /\ (t_at t = TEnded -> t_at t' = TEnded /\ a <> Event i)).
  { intros -> N. exists t. auto. }
  destruct a; cbn [step] in H;
    try (apply K; [|discriminate];
         repeat match type of H with (match ?x with _ => _ end) = _ => destruct x; try discriminate end;
         injection H as <-; cbn; rewrite ?know_tops; reflexivity).
  - destruct (existsb _ _); injection H as <-; [apply K; [reflexivity|discriminate]|]. cbn [set_cl set_tops tops]. exists t. split; [now apply app_at|]. intros E. split; [exact E|discriminate].
  - destruct (nth_error (tops s) i0) as [z|] eqn:Hz; [|discriminate]. destruct (t_at z) eqn:Ez; try discriminate. injection H as <-.
    cbn [set_tops tops]. eexists. split; [eapply upd_at; eauto|]. intros E. destruct (Nat.eqb_spec i i0) as [->|N]; [congruence|]. split; [exact E|congruence].
  - destruct (nth_error (tops s) i0) as [z|] eqn:Hz; [|discriminate]. destruct (t_at z) eqn:Ez; try discriminate. injection H as <-.
    cbn [set_tops tops]. eexists. split; [eapply upd_at; eauto|]. intros E. destruct (Nat.eqb_spec i i0) as [->|N]; [congruence|]. split; [exact E|congruence].
  - destruct (cl s); try discriminate. destruct (existsb _ _); [|discriminate]. destruct (nth_error (tops s) i0) as [z|] eqn:Hz; [|discriminate]. destruct (t_at z) eqn:Ez; try discriminate. injection H as <-.
    cbn [set_cl set_tops tops]. eexists. split; [eapply upd_at; eauto|]. intros E. destruct (Nat.eqb_spec i i0) as [->|N]; [congruence|]. split; [exact E|congruence].
Qed.
Lemma step_tcovered s a s' i : step s a = Some s' -> flag s = true -> tcovered s i -> tcovered s' i.
Proof.
  intros H F (t & Ht & C). destruct (step_top _ _ _ _ _ H Ht) as (t' & Ht' & E). exists t'. split; [exact Ht'|].
  assert (K : cl s' = cl s -> match cl s' with Topics l => In i l \/ t_at t' = TEnded | Finished => t_at t' = TEnded | _ => True end).
  { intros ->. destruct (cl s); auto; [destruct C as [C|C]; [auto|right; now apply E]|now apply E]. }
  assert (K2 : forall q b, cl s' = cl (know q b s) -> match cl s' with Topics l => In i l \/ t_at t' = TEnded | Finished => t_at t' = TEnded | _ => True end).
  { intros q b Q. destruct (know_cl q b s) as [X|X]; [apply K; congruence|]. rewrite Q, X. destruct (cl s); cbn; auto; [destruct C as [C|C]; [auto|right; now apply E]|now apply E]. }
  destruct a; cbn [step] in H.
  - destruct (closing _ _); [discriminate|]. injection H as <-. eapply K2. reflexivity.
  - destruct (Nat.ltb _ _); [|discriminate]. injection H as <-. eapply K2. reflexivity.
  - destruct (nth_error _ _) as [z|]; [|discriminate]. destruct (s_at z); try discriminate. destruct (Nat.ltb _ _); [|discriminate]. injection H as <-. now apply K.
  - destruct (nth_error _ _) as [z|]; [|discriminate]. destruct (s_at z); try discriminate. injection H as <-. now apply K.
  - destruct (nth_error _ _) as [z|]; [|discriminate]. destruct (s_at z); try discriminate. destruct (s_term z); [|discriminate]. injection H as <-. now apply K.
  - destruct (existsb _ _); injection H as <-; [now apply K|]. destruct seen; [|now apply K]. cbn [set_cl cl].
    destruct (cl s); cbn; auto; [destruct C as [C|C]; [auto|right; now apply E]|now apply E].
  - destruct (nth_error _ _) as [z|]; [|discriminate]. destruct (t_at z); try discriminate. injection H as <-. now apply K.
  - destruct (nth_error _ _) as [z|]; [|discriminate]. destruct (t_at z); try discriminate. injection H as <-. now apply K.
  - rewrite F in H. injection H as <-. now apply K.
  - destruct (cl s) as [|l|?|?|?|]; try discriminate. destruct (existsb _ _); [|discriminate]. injection H as <-. exact I.
  - destruct (cl s) as [|?|p [|j l] r|?|?|]; try discriminate. destruct (nth_error (subs s) j) as [z|]; [|discriminate]. injection H as <-. cbn [set_cl cl]. now destruct (is_coordinator_queue p).
  - destruct (cl s); try discriminate. destruct (nth_error _ _) as [z|]; [|discriminate]. destruct (s_at z); try discriminate. injection H as <-. exact I.
  - destruct (cl s) as [|?|p [|j l] r|?|?|]; try discriminate. injection H as <-. exact I.
  - destruct (cl s) as [|[|]|p l r|?|?|]; try discriminate. injection H as <-. cbn [set_cl cl]. left. apply in_seq. split; [lia|]. apply nth_error_Some. congruence.
  - destruct (cl s) as [|?|?|?|l|]; try discriminate. destruct (existsb _ _); [|discriminate]. destruct (nth_error (tops s) i0) as [z|] eqn:Hz; [|discriminate]. destruct (t_at z); try discriminate. injection H as <-.
    cbn [set_cl set_tops cl tops] in *. destruct (Nat.eq_dec i i0) as [->|N].
    + right. rewrite (nth_upd_same _ _ _ _ Hz) in Ht'. now injection Ht' as <-.
    + destruct C as [C|C]; [left; apply filter_In; split; [exact C|now apply negb_true_iff, Nat.eqb_neq]|right; now apply E].
  - destruct (cl s) as [|?|?|?|[|]|]; try discriminate. injection H as <-. cbn [set_ca set_cl cl]. destruct C as [[]|C]. now apply E.
  - destruct (ca s); try discriminate. injection H as <-. now apply K.
Qed.
Theorem C95_events_block_refuted : forall l1 s1 l2 s2 l3 s3 i t,
  run empty l1 = Some s1 -> flag s1 = false -> run s1 (Shut :: l2) = Some s2 -> cl s2 = Finished ->
  nth_error (tops s1) i = Some t -> run s2 l3 = Some s3 -> ~ In (Event i) l3 /\ step s3 (Event i) = None.
Proof.
  intros l1 s1 l2 s2 l3 s3 i t R1 F R2 C Ht R3. cbn [run step] in R2. rewrite F in R2.
  assert (Cov : tcovered s2 i).
  { assert (G : forall l s s', run s l = Some s' -> flag s = true -> tcovered s i -> tcovered s' i).
    { clear. induction l as [|a l IH]; intros s s' H Fl Co; cbn [run] in H; [injection H as <-; exact Co|]. destruct (step s a) as [s1|] eqn:S; [|discriminate].
      eapply IH; [exact H|eapply step_flag; eassumption|eapply step_tcovered; eassumption]. }
    eapply G; [exact R2|reflexivity|]. exists t. split; [exact Ht|exact I]. }
  destruct Cov as (u & Hu & E). rewrite C in E. clear - Hu E R3. revert s2 u Hu E R3. induction l3 as [|a l IH]; intros s2 u Hu E R3; cbn [run] in R3.
  - injection R3 as <-. split; [intros []|]. cbn [step]. now rewrite Hu, E.
  - destruct (step s2 a) as [sx|] eqn:S; [|discriminate]. destruct (step_top _ _ _ _ _ S Hu) as (v & Hv & X). destruct (X E) as [Ev Nv].
    destruct (IH _ _ Hv Ev R3) as [A B]. split; [|exact B]. intros [Q|Q]; [exact (Nv Q)|exact (A Q)].
Qed.
Print Assumptions C95_events_block_refuted.

(** A report sent to the coordinator after the broker was stopped is accepted, and nobody ever handles it: they pile up, and
    once a thousand are there the sender waits for ever. *)
Lemma upd_length {A} (l : list A) i x : List.length (upd l i x) = List.length l.
Proof. revert i. induction l as [|y l IH]; intros [|i]; cbn; congruence. Qed.
Lemma nth_error_Some_len {A} (l : list A) i x : nth_error l i = Some x -> i < List.length l.
Proof. intros H. apply nth_error_Some. congruence. Qed.
Definition count_pub (q : string) (l : list act) : nat := List.length (filter (fun a => match a with Publish p _ => String.eqb q p | _ => false end) l).
Lemma count_drop1 q p l : q <> p -> count q (drop1 p l) = count q l.
Proof.
  intros N. unfold count. induction l as [|x l IH]; [reflexivity|]. cbn. destruct (String.eqb_spec x p) as [->|D].
  - destruct (String.eqb_spec q p); [contradiction|reflexivity].
  - cbn. destruct (String.eqb q x); cbn; congruence.
Qed.
Lemma count_snoc q p l : count q (l ++ [p]) = count q l + (if String.eqb q p then 1 else 0).
Proof. unfold count. rewrite filter_app, app_length. cbn. now destruct (String.eqb q p). Qed.
Theorem C95_reports_after_stop_refuted : forall l s s' q,
  run s l = Some s' -> (forall i x, nth_error (subs s) i = Some x -> s_q x = q -> s_at x = Ended) ->
  (forall b, ~ In (Subscribe q b) l) ->
  count q (waiting s') = count q (waiting s) + count_pub q l /\ (forall b, CAP <= count q (waiting s') -> step s' (Publish q b) = None).
Proof.
  intros l s s' q R D N. split; [|intros b L; cbn [step]; destruct (Nat.ltb_spec (count q (waiting s')) CAP); [lia|reflexivity]].
  revert s R D. induction l as [|a l IH]; intros s R D; cbn [run] in R; [injection R as <-; cbn; lia|].
  destruct (step s a) as [s1|] eqn:S; [|discriminate].
  assert (D1 : forall i x, nth_error (subs s1) i = Some x -> s_q x = q -> s_at x = Ended).
  { intros i x Hx Hq. destruct (nth_error (subs s) i) as [z|] eqn:Hz.
    - destruct (step_sub _ _ _ _ _ S Hz) as (y & Hy & (L1 & L2 & _) & _). rewrite Hx in Hy. injection Hy as <-. apply L2. eapply D; [exact Hz|congruence].
    - assert (X : exists p b, a = Subscribe p b /\ x = Sub p Select false).
      { destruct a; cbn [step] in S;
          try (exfalso; repeat match type of S with (match ?x with _ => _ end) = _ => destruct x eqn:?; try discriminate end;
               injection S as <-; cbn in Hx; rewrite ?know_subs in Hx;
               first [congruence | apply nth_error_None in Hz; assert (Y : nth_error (@nil sub) 0 = None) by reflexivity; apply (f_equal (fun o => match o with Some _ => true | None => false end)) in Hx;
                      match type of Hx with match nth_error ?l i with _ => _ end = _ => destruct (nth_error l i) eqn:Q; [|discriminate]; apply nth_error_Some_len in Q; rewrite upd_length in Q; lia end]).
        destruct (closing _ _); [discriminate|]. injection S as <-. cbn in Hx. rewrite know_subs in Hx. destruct (app_cases _ _ _ _ Hx) as [Hx'|[_ ->]]; [congruence|]. eauto. }
      destruct X as (p & b & -> & ->). cbn in Hq. subst p. exfalso. apply (N b). now left. }
  rewrite (IH (fun b H => N b (or_intror H)) _ R D1). clear IH R.
  assert (W : waiting s1 = waiting s -> (match a with Publish p _ => False | _ => True end) -> count q (waiting s1) + count_pub q l = count q (waiting s) + count_pub q (a :: l)).
  { intros -> H. unfold count_pub. cbn [filter]. destruct a; try reflexivity. destruct H. }
  destruct a; cbn [step] in S;
    try (apply W; [|exact I]; repeat match type of S with (match ?x with _ => _ end) = _ => destruct x; try discriminate end;
         injection S as <-; cbn; rewrite ?know_waiting; reflexivity).
  - destruct (Nat.ltb _ _); [|discriminate]. injection S as <-. cbn [set_waiting waiting]. rewrite know_waiting, count_snoc. unfold count_pub. cbn [filter]. destruct (String.eqb q q0); cbn [List.length]; lia.
  - destruct (nth_error (subs s) i) as [z|] eqn:Hz; [|discriminate]. destruct (s_at z) eqn:Ez; try discriminate. destruct (Nat.ltb _ _); [|discriminate]. injection S as <-.
    cbn [set_subs set_waiting waiting]. rewrite count_drop1; [reflexivity|]. intros ->. rewrite (D i z Hz eq_refl) in Ez. discriminate.
Qed.
Print Assumptions C95_reports_after_stop_refuted.

(** A worker may start another task after Shutdown has returned without running into its deadline: its subscription was
    told to end, but a select takes either branch when both are ready. *)
Theorem C95_worker_starts_task_refuted : exists l s s',
  run empty l = Some s /\ ca s = Returned false /\ run s [Take 0] = Some s' /\ sub_at s' 0 "default" Busy.
Proof.
  exists [Subscribe "default" false; Publish "default" false; Shut; Visit "default"; Close; NextQueue; ToTopics; Finish].
  eexists. eexists. split; [vm_compute; reflexivity|]. split; [reflexivity|]. split; [vm_compute; reflexivity|]. eexists. reflexivity.
Qed.
Print Assumptions C95_worker_starts_task_refuted.
(** After the deadline Shutdown returns - without an error - while the coordinator still handles a message; and the same
    broker shut down a second time (the coordinator's turn, in an engine that runs both) does not wait for it either. *)
Theorem C95_deadline_refuted : exists l s,
  run empty l = Some s /\ ca s = Returned true /\ sub_at s 0 "completed" Busy /\ step s Shut = Some s.
Proof.
  exists [Subscribe "completed" false; Publish "completed" false; Take 0; Shut; Visit "completed"; Close; Deadline].
  eexists. split; [vm_compute; reflexivity|]. split; [reflexivity|]. split; [eexists; reflexivity|reflexivity].
Qed.
Print Assumptions C95_deadline_refuted.

(* ------------------------------------------------------------------ *)
(** * Non-vacuity *)
Definition ex_before : list act :=
  [Subscribe "completed" false; Subscribe "completed" false; Subscribe "default" false; SubscribeEv "job.*" false;
   Publish "completed" false; Take 1; Event 0].
Definition ex_stop : list act :=
  [Visit "default"; Close; Exit 2; NextQueue; Publish "completed" false; Visit "completed"; Close; Exit 0; Joined; Close; Handled 1; Exit 1; Joined; NextQueue;
   ToTopics; EventDone 0; CloseTopic 0; Finish].
Example C95_example : exists s1 s2 s3,
  run empty ex_before = Some s1 /\ flag s1 = false /\ run s1 (Shut :: ex_stop) = Some s2 /\ cl s2 = Finished /\ ca s2 = Returned false /\
  sub_at s2 0 "completed" Ended /\ sub_at s2 1 "completed" Ended /\ sub_at s2 2 "default" Ended /\ healthy s2 = false /\
  run s2 [Publish "completed" false; Publish "completed" false; SubscribeEv "node.*" false; Event 1] = Some s3 /\
  count "completed" (waiting s2) = 1 /\ count "completed" (waiting s3) = 3 /\
  step s3 (Event 0) = None /\ step s3 (Take 0) = None.
Proof.
  do 3 eexists. split; [vm_compute; reflexivity|]. split; [reflexivity|]. split; [vm_compute; reflexivity|]. split; [reflexivity|]. split; [reflexivity|].
  split; [eexists; reflexivity|]. split; [eexists; reflexivity|]. split; [eexists; reflexivity|]. split; [reflexivity|]. split; [vm_compute; reflexivity|].
  split; [reflexivity|]. split; [reflexivity|]. split; reflexivity.
Qed.
