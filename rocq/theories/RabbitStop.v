(** C68: stopping the RabbitMQ broker.
    broker/rabbitmq.go:242-400 (the goroutine of a subscription), 576-634 (Shutdown); broker/queues.go:49-61. *)
From Coq Require Import String List Bool Arith Lia.
From Verif Require Import Roles Rabbit.
Import ListNotations.
Open Scope string_scope.
Open Scope list_scope.

(* ------------------------------------------------------------------ *)
(** * The code *)
(** where the goroutine of a subscription is: in its select (:284), in the handler (:377; any work between two selects),
    its message channel was closed and it decides whether to subscribe again, having failed n times (:331), inside that attempt (:333),
    blocked on [sub.done <-] having given up (:342), returned after a successful re-subscription (:339), told to stop and
    on its way to [sub.done <-] (:285-300), ended; the context given to SubscribeForEvents is done and it is blocked on
    [sub.done <-], no longer in b.subscriptions (:302-325; the other subscriptions have context.Background()) *)
Inductive place := Select | Busy | Looking (n : nat) | Trying (n : nat) | Blocked | Gone | Ending | Ended | Leaked.
(** the entry of a subscription in b.subscriptions (:273-275); entries are never reused *)
Record entry := Entry { x_q : string; x_at : place }.
(** where Shutdown is: not called, in its loop with these entries still to visit (:588), waiting for this one (:597-600), returned *)
Inductive stop := Before | At (todo : list nat) | Wait (i : nat) (todo : list nat) | Returned.
Record st := St { ents : list entry; flag : bool; expired : bool; sh : stop }.
Definition empty : st := St [] false false Before.
Definition max_attempts := 20. (* :330 *)

Inductive act :=
| New (q : string)                   (* :242-283 *)
| Message (i : nat)                  (* a delivery is taken from the channel, :326 *)
| Handled (i : nat)                  (* the handler is done and the loop goes round *)
| Closed (i : nat)                   (* the message channel is found closed, :327 *)
| Look (i : nat)                     (* :331 *)
| Attempt (i : nat) (ok seen : bool) (* :333-340; an entry added while Shutdown iterates may or may not be visited (Go maps) *)
| Shut                               (* Shutdown is called, :577-585 *)
| Visit (i : nat)                    (* next entry of the loop, in any order: Go maps, :588-595 *)
| Done (i : nat)                     (* sub.done is sent and received, :300, :599 *)
| Expire                             (* the context given to Shutdown expires *)
| GiveUp                             (* :598 *)
| Finish                             (* connections closed, :602-626 *)
| CtxDone (i : nat).                 (* the context of an event subscription is found done, :302-325 *)

Definition set_at (s : st) (i : nat) (x : entry) (p : place) : st := St (upd (ents s) i (Entry (x_q x) p)) (flag s) (expired s) (sh s).
Definition add_todo (s : st) (i : nat) (seen : bool) : stop :=
  if seen then match sh s with At l => At (i :: l) | Wait j l => Wait j (i :: l) | x => x end else sh s.
Definition ids (s : st) : list nat := seq 0 (length (ents s)).
Definition in_map (s : st) (i : nat) : bool := match nth_error (ents s) i with Some x => match x_at x with Ending | Ended | Leaked => false | _ => true end | None => false end.

Definition step (s : st) (a : act) : option st :=
  match a with
  | New q => Some (St (ents s ++ [Entry q Select]) (flag s) (expired s) (sh s))
  | Message i => match nth_error (ents s) i with Some x => match x_at x with Select => Some (set_at s i x Busy) | _ => None end | None => None end
  | Handled i => match nth_error (ents s) i with Some x => match x_at x with Busy => Some (set_at s i x Select) | _ => None end | None => None end
  | Closed i => match nth_error (ents s) i with Some x => match x_at x with Select => Some (set_at s i x (Looking 0)) | _ => None end | None => None end
  | Look i => match nth_error (ents s) i with
              | Some x => match x_at x with
                          | Looking n => Some (set_at s i x (if flag s || Nat.leb max_attempts n then Blocked else Trying n))
                          | _ => None end
              | None => None end
  | Attempt i ok seen =>
      match nth_error (ents s) i with
      | Some x => match x_at x with
                  | Trying n =>
                      if ok then Some (St (upd (ents s) i (Entry (x_q x) Gone) ++ [Entry (x_q x) Select]) (flag s) (expired s) (add_todo s (length (ents s)) seen))
                      else Some (set_at s i x (Looking (S n)))
                  | _ => None end
      | None => None end
  | Shut => match sh s with Before => Some (St (ents s) true (expired s) (At (filter (in_map s) (ids s)))) | _ => Some s end
  | Visit i => match sh s with
               | At todo =>
                   if existsb (Nat.eqb i) todo then
                     match nth_error (ents s) i with
                     | Some x =>
                         let rest := filter (fun j => negb (Nat.eqb j i)) todo in
                         if is_coordinator_queue (x_q x)
                         then match x_at x with
                              | Select => Some (St (upd (ents s) i (Entry (x_q x) Ending)) (flag s) (expired s) (Wait i rest))
                              | _ => None (* [sub.cancel <-] blocks, whatever the context *)
                              end
                         else Some (St (ents s) (flag s) (expired s) (At rest))
                     | None => None end
                   else None
               | _ => None end
  | Done i => match sh s, nth_error (ents s) i with
              | Wait j todo, Some x => if Nat.eqb i j then match x_at x with Ending => Some (St (upd (ents s) i (Entry (x_q x) Ended)) (flag s) (expired s) (At todo)) | _ => None end else None
              | _, _ => None end
  | Expire => Some (St (ents s) (flag s) true (sh s))
  | GiveUp => match sh s with Wait _ todo => if expired s then Some (St (ents s) (flag s) (expired s) (At todo)) else None | _ => None end
  | Finish => match sh s with At [] => Some (St (ents s) (flag s) (expired s) Returned) | _ => None end
  | CtxDone i => match nth_error (ents s) i with
                 | Some x => match x_at x with
                             | Select => if is_coordinator_queue (x_q x) then None else Some (set_at s i x Leaked)
                             | _ => None end
                 | None => None end
  end.
Fixpoint run (s : st) (l : list act) : option st :=
  match l with [] => Some s | a :: l => match step s a with Some s => run s l | None => None end end.
Definition reachable (s : st) : Prop := exists l, run empty l = Some s.

(* ------------------------------------------------------------------ *)
(** * Specification *)
Definition at_ (s : st) (i : nat) (p : place) : Prop := exists q, nth_error (ents s) i = Some (Entry q p).
Definition consumes (s : st) (i : nat) (q : string) : Prop := exists p, nth_error (ents s) i = Some (Entry q p).
(** the subscription has lost its channel at some time *)
Definition lost (p : place) : bool := match p with Looking _ | Trying _ | Blocked | Gone => true | _ => false end.
(** the subscription will never call its handler again *)
Definition over (p : place) : bool := match p with Ending | Ended | Leaked => true | _ => lost p end.

(* ------------------------------------------------------------------ *)
(** * Proofs *)
Local Arguments is_coordinator_queue : simpl never.
(** what one step does to one entry *)
Inductive moves : place -> place -> Prop :=
| mv_same : forall p, moves p p
| mv_msg : moves Select Busy | mv_handled : moves Busy Select | mv_closed : moves Select (Looking 0)
| mv_look : forall n p, p = Blocked \/ p = Trying n -> moves (Looking n) p
| mv_try : forall n p, p = Gone \/ p = Looking (S n) -> moves (Trying n) p
| mv_stop : moves Select Ending | mv_done : moves Ending Ended | mv_leak : moves Select Leaked.
Lemma upd_moves : forall (l : list entry) j x p i q r, nth_error l j = Some x -> moves (x_at x) p -> nth_error l i = Some (Entry q r) ->
  exists r', nth_error (upd l j (Entry (x_q x) p)) i = Some (Entry q r') /\ moves r r'.
Proof.
  intros l j x p i q r Hj M Hi. destruct (Nat.eq_dec j i) as [->|N].
  - rewrite Hi in Hj. injection Hj as <-. exists p. split; [apply (nth_upd_same _ _ _ _ Hi)|exact M].
  - exists r. split; [rewrite nth_upd_other; assumption|constructor].
Qed.
Lemma app_keeps : forall (l m : list entry) i x, nth_error l i = Some x -> nth_error (l ++ m) i = Some x.
Proof. intros. rewrite nth_error_app1; [assumption|]. apply nth_error_Some. congruence. Qed.
Lemma step_moves : forall s a s' i q p, step s a = Some s' -> nth_error (ents s) i = Some (Entry q p) ->
  exists p', nth_error (ents s') i = Some (Entry q p') /\ moves p p'.
Proof.
  intros s a s' i q p H Hi.
  assert (ID : exists p', nth_error (ents s) i = Some (Entry q p') /\ moves p p') by (exists p; split; [exact Hi|constructor]).
  destruct a as [q0|j|j|j|j|j ok seen| |j|j| | | |j]; cbn in H.
  - injection H as <-. cbn. exists p. split; [apply app_keeps; exact Hi|constructor].
  - destruct (nth_error (ents s) j) as [x|] eqn:Hj; [|discriminate]. destruct (x_at x) eqn:P; try discriminate. injection H as <-.
    eapply upd_moves; eauto. rewrite P. constructor.
  - destruct (nth_error (ents s) j) as [x|] eqn:Hj; [|discriminate]. destruct (x_at x) eqn:P; try discriminate. injection H as <-.
    eapply upd_moves; eauto. rewrite P. constructor.
  - destruct (nth_error (ents s) j) as [x|] eqn:Hj; [|discriminate]. destruct (x_at x) eqn:P; try discriminate. injection H as <-.
    eapply upd_moves; eauto. rewrite P. constructor.
  - destruct (nth_error (ents s) j) as [x|] eqn:Hj; [|discriminate]. destruct (x_at x) eqn:P; try discriminate. injection H as <-.
    eapply upd_moves; eauto. rewrite P. constructor. destruct (flag s || _); auto.
  - destruct (nth_error (ents s) j) as [x|] eqn:Hj; [|discriminate]. destruct (x_at x) eqn:P; try discriminate. destruct ok; injection H as <-.
    + destruct (upd_moves _ _ _ Gone _ _ _ Hj ltac:(rewrite P; constructor; auto) Hi) as (p' & A & B). exists p'. cbn. split; [apply app_keeps; exact A|exact B].
    + eapply upd_moves; eauto. rewrite P. constructor. auto.
  - destruct (sh s); injection H as <-; exact ID.
  - destruct (sh s) as [|todo|k todo|]; try discriminate. destruct (existsb (Nat.eqb j) todo); [|discriminate].
    destruct (nth_error (ents s) j) as [x|] eqn:Hj; [|discriminate]. destruct (is_coordinator_queue (x_q x)).
    + destruct (x_at x) eqn:P; try discriminate. injection H as <-. cbn. eapply upd_moves; eauto. rewrite P. constructor.
    + injection H as <-. exact ID.
  - destruct (sh s) as [|todo|k todo|]; try discriminate. destruct (nth_error (ents s) j) as [x|] eqn:Hj; [|discriminate].
    destruct (Nat.eqb j k); [|discriminate]. destruct (x_at x) eqn:P; try discriminate. injection H as <-. cbn. eapply upd_moves; eauto. rewrite P. constructor.
  - injection H as <-. exact ID.
  - destruct (sh s) as [|todo|k todo|]; try discriminate. destruct (expired s); [|discriminate]. injection H as <-. exact ID.
  - destruct (sh s) as [|[|]|k todo|]; try discriminate. injection H as <-. exact ID.
  - destruct (nth_error (ents s) j) as [x|] eqn:Hj; [|discriminate]. destruct (x_at x) eqn:P; try discriminate.
    destruct (is_coordinator_queue (x_q x)); [discriminate|]. injection H as <-. eapply upd_moves; eauto. rewrite P. constructor.
Qed.
Lemma lost_stays : forall p p', moves p p' -> lost p = true -> lost p' = true.
Proof. intros p p' M L. destruct M; try discriminate; auto. all: destruct H as [->| ->]; reflexivity. Qed.
Lemma over_stays : forall p p', moves p p' -> over p = true -> over p' = true.
Proof. intros p p' M L. destruct M; try discriminate; auto. all: destruct H as [->| ->]; reflexivity. Qed.
Lemma run_lost : forall l s s' i q p, run s l = Some s' -> nth_error (ents s) i = Some (Entry q p) -> lost p = true ->
  exists p', nth_error (ents s') i = Some (Entry q p') /\ lost p' = true.
Proof.
  induction l as [|a l IH]; intros s s' i q p H Hi L; cbn in H; [injection H as <-; eauto|].
  destruct (step s a) as [s1|] eqn:E; [|discriminate]. destruct (step_moves _ _ _ _ _ _ E Hi) as (p' & A & B).
  exact (IH _ _ _ _ _ H A (lost_stays _ _ B L)).
Qed.

(** Shutdown does not get past an entry of its own queues that is not in its select *)
Definition todo_of (x : stop) : option (list nat) := match x with At l | Wait _ l => Some l | _ => None end.
Definition pending (s : st) (i : nat) : Prop := sh s = Before \/ exists l, todo_of (sh s) = Some l /\ In i l.
Lemma pending_step : forall s a s' i q p, step s a = Some s' -> nth_error (ents s) i = Some (Entry q p) -> is_coordinator_queue q = true -> lost p = true ->
  pending s i -> pending s' i.
Proof.
  intros s a s' i q p H Hi Q L P.
  assert (K : sh s' = sh s -> pending s' i) by (intros E; unfold pending; rewrite E; exact P).
  destruct a as [q0|j|j|j|j|j ok seen| |j|j| | | |j]; cbn in H.
  - injection H as <-. apply K. reflexivity.
  - destruct (nth_error (ents s) j) as [x|]; [|discriminate]. destruct (x_at x); try discriminate. injection H as <-. apply K. reflexivity.
  - destruct (nth_error (ents s) j) as [x|]; [|discriminate]. destruct (x_at x); try discriminate. injection H as <-. apply K. reflexivity.
  - destruct (nth_error (ents s) j) as [x|]; [|discriminate]. destruct (x_at x); try discriminate. injection H as <-. apply K. reflexivity.
  - destruct (nth_error (ents s) j) as [x|]; [|discriminate]. destruct (x_at x); try discriminate. injection H as <-. apply K. reflexivity.
  - destruct (nth_error (ents s) j) as [x|]; [|discriminate]. destruct (x_at x); try discriminate. destruct ok; injection H as <-; [|apply K; reflexivity].
    unfold pending in *. cbn. unfold add_todo. destruct seen; [|exact P]. destruct P as [->|(l & T & Hl)]; [left; reflexivity|right].
    destruct (sh s); cbn in *; try discriminate; injection T as ->; eexists; (split; [reflexivity|right; exact Hl]).
  - destruct (sh s) eqn:S; try (injection H as <-; apply K; rewrite ?S; reflexivity). injection H as <-. right. cbn.
    eexists. split; [reflexivity|]. apply filter_In. split.
    + unfold ids. apply in_seq. split; [lia|]. cbn. apply nth_error_Some. congruence.
    + unfold in_map. rewrite Hi. cbn. destruct p; try discriminate; reflexivity.
  - destruct (sh s) as [|todo|k todo|] eqn:S; try discriminate. destruct (existsb (Nat.eqb j) todo); [|discriminate].
    destruct (nth_error (ents s) j) as [x|] eqn:Hj; [|discriminate].
    assert (N : In i todo). { destruct P as [P|(l & T & Hl)]; [congruence|]. rewrite S in T. injection T as <-. exact Hl. }
    assert (R : j <> i -> In i (filter (fun k => negb (Nat.eqb k j)) todo)).
    { intros NE. apply filter_In. split; [exact N|]. rewrite (proj2 (Nat.eqb_neq i j)); [reflexivity|congruence]. }
    assert (NE : j <> i).
    { intros ->. rewrite Hi in Hj. injection Hj as <-. cbn in H. rewrite Q in H. destruct p; discriminate. }
    destruct (is_coordinator_queue (x_q x)); [destruct (x_at x); try discriminate|]; injection H as <-; right; eexists; (split; [reflexivity|exact (R NE)]).
  - destruct (sh s) as [|todo|k todo|] eqn:S; try discriminate. destruct (nth_error (ents s) j) as [x|] eqn:Hj; [|discriminate].
    destruct (Nat.eqb j k); [|discriminate]. destruct (x_at x); try discriminate. injection H as <-.
    destruct P as [P|(l & T & Hl)]; [congruence|]. rewrite S in T. injection T as <-. right. eexists. split; [reflexivity|exact Hl].
  - injection H as <-. apply K. reflexivity.
  - destruct (sh s) as [|todo|k todo|] eqn:S; try discriminate. destruct (expired s); [|discriminate]. injection H as <-.
    destruct P as [P|(l & T & Hl)]; [congruence|]. rewrite S in T. injection T as <-. right. eexists. split; [reflexivity|exact Hl].
  - destruct (sh s) as [|[|]|k todo|] eqn:S; try discriminate. injection H as <-.
    destruct P as [P|(l & T & Hl)]; [congruence|]. rewrite S in T. injection T as <-. destruct Hl.
  - destruct (nth_error (ents s) j) as [x|]; [|discriminate]. destruct (x_at x); try discriminate.
    destruct (is_coordinator_queue (x_q x)); [discriminate|]. injection H as <-. apply K. reflexivity.
Qed.

(** once a subscription to one of the coordinator's queues has seen its channel close - whether the re-subscription
    then succeeds or not - a Shutdown called afterwards never returns, even after its context has expired *)
Theorem C68_shutdown_hangs_after_a_reconnect : forall s i q p l s', reachable s -> sh s = Before ->
  nth_error (ents s) i = Some (Entry q p) -> is_coordinator_queue q = true -> lost p = true -> run s l = Some s' -> sh s' <> Returned.
Proof.
  intros s i q p l s' _ B Hi Q L H.
  assert (G : forall l s s' p, run s l = Some s' -> nth_error (ents s) i = Some (Entry q p) -> lost p = true -> pending s i -> pending s' i).
  { clear - Q. induction l as [|a l IH]; intros s s' p H Hi L P; cbn in H; [injection H as <-; exact P|].
    destruct (step s a) as [s1|] eqn:E; [|discriminate]. destruct (step_moves _ _ _ _ _ _ E Hi) as (p' & A & M).
    exact (IH _ _ _ H A (lost_stays _ _ M L) (pending_step _ _ _ _ _ _ E Hi Q L P)). }
  assert (P : pending s' i) by (eapply G; eauto; left; exact B).
  intros R. destruct P as [P|(t & T & _)]; [congruence|]. rewrite R in T. discriminate.
Qed.

(** when Shutdown returns, every subscription to one of the coordinator's queues that existed when it was called has been
    told to stop: it is not running its handler and will never call it again - also when the context expired *)
Definition visited_inv (s : st) (old : nat) : Prop :=
  forall i q p, i < old -> nth_error (ents s) i = Some (Entry q p) -> is_coordinator_queue q = true -> over p = true \/ exists l, todo_of (sh s) = Some l /\ In i l.
Lemma visited_step : forall s a s' old, old <= length (ents s) -> sh s <> Before -> visited_inv s old -> step s a = Some s' ->
  visited_inv s' old /\ sh s' <> Before /\ old <= length (ents s').
Proof.
  intros s a s' old LE NB V H.
  assert (PREV : forall i q p', i < old -> nth_error (ents s') i = Some (Entry q p') -> exists p, nth_error (ents s) i = Some (Entry q p) /\ moves p p').
  { intros i q p' Lt Hi'. destruct (nth_error (ents s) i) as [[q0 p]|] eqn:Hi; [|apply nth_error_None in Hi; lia].
    destruct (step_moves _ _ _ _ _ _ H Hi) as (p2 & A & M). rewrite Hi' in A. injection A as <- <-. exists p. auto. }
  assert (LEN : old <= length (ents s')).
  { destruct old as [|old]; [lia|]. assert (Lt : old < length (ents s)) by lia. apply nth_error_Some in Lt.
    destruct (nth_error (ents s) old) as [[q p]|] eqn:E; [|congruence]. destruct (step_moves _ _ _ _ _ _ H E) as (p' & A & _).
    assert (old < length (ents s')) by (apply nth_error_Some; congruence). lia. }
  assert (K : sh s' = sh s -> visited_inv s' old /\ sh s' <> Before /\ old <= length (ents s')).
  { intros E. split; [|split; [congruence|exact LEN]]. intros i q p' Lt Hi' Q. destruct (PREV _ _ _ Lt Hi') as (p & Hi & M).
    destruct (V i q p Lt Hi Q) as [O|T]; [left; exact (over_stays _ _ M O)|right]. rewrite E. exact T. }
  assert (K2 : sh s' <> Before -> (forall i l, todo_of (sh s) = Some l -> In i l -> (exists l', todo_of (sh s') = Some l' /\ In i l')) -> visited_inv s' old /\ sh s' <> Before /\ old <= length (ents s')).
  { intros NB' E. split; [|split; [exact NB'|exact LEN]]. intros i q p' Lt Hi' Q. destruct (PREV _ _ _ Lt Hi') as (p & Hi & M).
    destruct (V i q p Lt Hi Q) as [O|(l & T & Hl)]; [left; exact (over_stays _ _ M O)|right]. exact (E _ _ T Hl). }
  destruct a as [q0|j|j|j|j|j ok seen| |j|j| | | |j]; cbn in H.
  - injection H as <-. apply K. reflexivity.
  - destruct (nth_error (ents s) j) as [x|]; [|discriminate]. destruct (x_at x); try discriminate. injection H as <-. apply K. reflexivity.
  - destruct (nth_error (ents s) j) as [x|]; [|discriminate]. destruct (x_at x); try discriminate. injection H as <-. apply K. reflexivity.
  - destruct (nth_error (ents s) j) as [x|]; [|discriminate]. destruct (x_at x); try discriminate. injection H as <-. apply K. reflexivity.
  - destruct (nth_error (ents s) j) as [x|]; [|discriminate]. destruct (x_at x); try discriminate. injection H as <-. apply K. reflexivity.
  - destruct (nth_error (ents s) j) as [x|]; [|discriminate]. destruct (x_at x); try discriminate. destruct ok; injection H as <-; [|apply K; reflexivity].
    destruct seen; [|apply K; reflexivity]. apply K2; cbn; unfold add_todo.
    + destruct (sh s); congruence.
    + intros i l T Hl. destruct (sh s); cbn in *; try discriminate; injection T as ->; eexists; (split; [reflexivity|right; exact Hl]).
  - destruct (sh s) eqn:S; try congruence; injection H as <-; apply K; assumption.
  - destruct (sh s) as [|todo|k todo|] eqn:S; try discriminate. destruct (existsb (Nat.eqb j) todo); [|discriminate].
    destruct (nth_error (ents s) j) as [x|] eqn:Hj; [|discriminate]. destruct x as [q1 p1]. cbn in H.
    split; [|split; [|exact LEN]].
    + intros i q p' Lt Hi' Q. destruct (PREV _ _ _ Lt Hi') as (p & Hi & M).
      destruct (V i q p Lt Hi Q) as [O|(l & T & Hl)]; [left; exact (over_stays _ _ M O)|]. rewrite S in T. injection T as <-.
      destruct (Nat.eq_dec i j) as [->|NE].
      * rewrite Hj in Hi. injection Hi as -> ->. rewrite Q in H. destruct p; try discriminate. injection H as <-. cbn in Hi'.
        rewrite (nth_upd_same _ _ _ _ Hj) in Hi'. injection Hi' as <-. left. reflexivity.
      * right. destruct (is_coordinator_queue q1); [destruct p1; try discriminate|]; injection H as <-; cbn; eexists; (split; [reflexivity|]);
          apply filter_In; (split; [exact Hl|rewrite (proj2 (Nat.eqb_neq i j) NE); reflexivity]).
    + destruct (is_coordinator_queue q1); [destruct p1; try discriminate|]; injection H as <-; cbn; discriminate.
  - destruct (sh s) as [|todo|k todo|] eqn:S; try discriminate. destruct (nth_error (ents s) j) as [x|] eqn:Hj; [|discriminate].
    destruct (Nat.eqb j k); [|discriminate]. destruct (x_at x); try discriminate. injection H as <-.
    apply K2; cbn; [discriminate|]. intros i l T Hl. injection T as ->. eauto.
  - injection H as <-. apply K. reflexivity.
  - destruct (sh s) as [|todo|k todo|] eqn:S; try discriminate. destruct (expired s); [|discriminate]. injection H as <-.
    apply K2; cbn; [discriminate|]. intros i l T Hl. injection T as ->. eauto.
  - destruct (sh s) as [|[|]|k todo|] eqn:S; try discriminate. injection H as <-.
    apply K2; cbn; [discriminate|]. intros i l T Hl. injection T as <-. destruct Hl.
  - destruct (nth_error (ents s) j) as [x|]; [|discriminate]. destruct (x_at x); try discriminate.
    destruct (is_coordinator_queue (x_q x)); [discriminate|]. injection H as <-. apply K. reflexivity.
Qed.
Theorem C68_shutdown_waits_for_the_coordinator : forall s s1 l s' i q p, reachable s -> sh s = Before -> step s Shut = Some s1 -> run s1 l = Some s' -> sh s' = Returned ->
  nth_error (ents s) i = Some (Entry q p) -> is_coordinator_queue q = true ->
  forall l2 s2, run s' l2 = Some s2 -> exists p2, nth_error (ents s2) i = Some (Entry q p2) /\ p2 <> Busy /\ p2 <> Select.
Proof.
  intros s s1 l s' i q p _ B S1 R E Hi Q l2 s2 R2.
  assert (MV : forall l s s' p, run s l = Some s' -> nth_error (ents s) i = Some (Entry q p) -> exists p', nth_error (ents s') i = Some (Entry q p') /\ (over p = true -> over p' = true)).
  { clear. induction l as [|a l IH]; intros s s' p H Hi; cbn in H; [injection H as <-; eauto|].
    destruct (step s a) as [s1|] eqn:E; [|discriminate]. destruct (step_moves _ _ _ _ _ _ E Hi) as (p' & A & M).
    destruct (IH _ _ _ H A) as (p2 & A2 & O). exists p2. split; [exact A2|]. intros X. apply O. exact (over_stays _ _ M X). }
  cbn in S1. rewrite B in S1. injection S1 as <-.
  set (s1 := St (ents s) true (expired s) (At (filter (in_map s) (ids s)))) in *.
  assert (V : visited_inv s1 (length (ents s))).
  { intros j q' p' Lt Hj _. cbn in Hj. destruct (over p') eqn:O; [left; reflexivity|right]. cbn. eexists. split; [reflexivity|].
    apply filter_In. split; [apply in_seq; lia|]. unfold in_map. rewrite Hj. cbn. destruct p'; try discriminate; reflexivity. }
  assert (G : forall l s s' old, run s l = Some s' -> old <= length (ents s) -> sh s <> Before -> visited_inv s old -> visited_inv s' old).
  { clear. induction l as [|a l IH]; intros s s' old H LE NB V; cbn in H; [injection H as <-; exact V|].
    destruct (step s a) as [s1|] eqn:E; [|discriminate]. destruct (visited_step _ _ _ _ LE NB V E) as (A & B & C). eauto. }
  assert (V' : visited_inv s' (length (ents s))) by (eapply G; [exact R|cbn; lia|cbn; discriminate|exact V]).
  destruct (MV _ _ _ _ R Hi) as (p' & Hi' & _).
  assert (Lt : i < length (ents s)) by (apply nth_error_Some; congruence).
  assert (O : over p' = true). { destruct (V' i q p' Lt Hi' Q) as [O|(t & T & _)]; [exact O|]. rewrite E in T. discriminate. }
  destruct (MV _ _ _ _ R2 Hi') as (p2 & A2 & O2). exists p2. specialize (O2 O). split; [exact A2|]. split; intros ->; discriminate.
Qed.

(** the subscription of events whose context is done never calls its handler again, whatever happens - and its goroutine never
    ends: it stays blocked for ever (nobody receives from sub.done) *)
Theorem C68_event_subscription_ends : forall s i q s1 l s2, nth_error (ents s) i = Some (Entry q Select) ->
  step s (CtxDone i) = Some s1 -> run s1 l = Some s2 -> nth_error (ents s2) i = Some (Entry q Leaked).
Proof.
  intros s i q s1 l s2 Hi S1 R. cbn in S1. rewrite Hi in S1. cbn in S1. destruct (is_coordinator_queue q); [discriminate|]. injection S1 as <-.
  assert (H1 : nth_error (ents (set_at s i (Entry q Select) Leaked)) i = Some (Entry q Leaked)) by (cbn; apply (nth_upd_same _ _ _ _ Hi)).
  revert R H1. generalize (set_at s i (Entry q Select) Leaked). clear. induction l as [|a l IH]; intros s R H; cbn in R; [injection R as <-; exact H|].
  destruct (step s a) as [s1|] eqn:E; [|discriminate]. destruct (step_moves _ _ _ _ _ _ E H) as (p' & A & M). inversion M; subst. eauto.
Qed.

(** a subscription that loses its channel while the broker is not shutting down tries to subscribe again 20 times, no more and no less *)
Theorem C68_twenty_attempts : forall s i q, nth_error (ents s) i = Some (Entry q Select) -> flag s = false ->
  forall k, k <= 20 -> exists s', run s (Closed i :: concat (repeat [Look i; Attempt i false false] k) ++ [Look i]) = Some s' /\
    nth_error (ents s') i = Some (Entry q (if Nat.ltb k 20 then Trying k else Blocked)).
Proof.
  intros s i q Hi F k LE.
  assert (G : forall k n s, nth_error (ents s) i = Some (Entry q (Looking n)) -> flag s = false -> n + k <= 20 ->
     exists s', run s (concat (repeat [Look i; Attempt i false false] k) ++ [Look i]) = Some s' /\
       nth_error (ents s') i = Some (Entry q (if Nat.ltb (n + k) 20 then Trying (n + k) else Blocked))).
  { clear. induction k as [|k IH]; intros n s Hi F LE.
    - cbn [repeat concat app run step]. rewrite Hi, F. cbn [x_at orb x_q]. eexists. split; [reflexivity|]. cbn [set_at ents x_q].
      rewrite (nth_upd_same _ _ _ _ Hi). rewrite Nat.add_0_r. unfold max_attempts. f_equal. f_equal.
      replace (Nat.ltb n 20) with (negb (Nat.leb 20 n)) by (symmetry; apply Nat.ltb_antisym). destruct (Nat.leb 20 n); reflexivity.
    - cbn [repeat concat app run step]. rewrite Hi, F. cbn [x_at orb x_q].
      replace (Nat.leb max_attempts n) with false by (symmetry; apply Nat.leb_gt; unfold max_attempts; lia).
      cbn [set_at ents flag sh expired]. rewrite (nth_upd_same _ _ _ _ Hi). cbn [x_at x_q].
      destruct (IH (S n) (set_at (set_at s i (Entry q (Looking n)) (Trying n)) i (Entry q (Trying n)) (Looking (S n)))) as (s' & R & H').
      + cbn. eapply nth_upd_same. apply (nth_upd_same _ _ _ _ Hi).
      + exact F.
      + lia.
      + exists s'. split; [exact R|]. replace (n + S k) with (S n + k) by lia. exact H'. }
  destruct (G k 0 (set_at s i (Entry q Select) (Looking 0))) as (s' & R & H').
  - cbn. apply (nth_upd_same _ _ _ _ Hi).
  - exact F.
  - lia.
  - exists s'. split; [|exact H']. cbn [run step]. rewrite Hi. cbn [x_at]. exact R.
Qed.

(** without losses Shutdown can always complete, handlers in progress being waited for *)
Theorem C68_shutdown_completes_without_losses : forall s, reachable s -> sh s = Before ->
  (forall i q p, nth_error (ents s) i = Some (Entry q p) -> is_coordinator_queue q = true -> lost p = false) ->
  exists l s', run s l = Some s' /\ sh s' = Returned /\ expired s' = expired s.
Proof.
  intros s _ B NL.
  assert (APP : forall a b s1 s2, run s1 a = Some s2 -> run s1 (a ++ b) = run s2 b).
  { induction a as [|x a IH]; intros b s1 s2 H; cbn in *; [injection H as <-; reflexivity|]. destruct (step s1 x); [eauto|discriminate]. }
  assert (G : forall n s todo, length todo <= n -> sh s = At todo ->
     (forall i, In i todo -> exists q p, nth_error (ents s) i = Some (Entry q p) /\ (is_coordinator_queue q = true -> p = Select \/ p = Busy)) -> NoDup todo ->
     exists l s', run s l = Some s' /\ sh s' = Returned /\ expired s' = expired s).
  { clear - APP. induction n as [|n IH]; intros s todo LE S OK ND.
    - destruct todo; [|cbn in LE; lia]. exists [Finish]. cbn. rewrite S. eexists. split; [reflexivity|]. split; reflexivity.
    - destruct todo as [|i rest]; [exists [Finish]; cbn; rewrite S; eexists; split; [reflexivity|split; reflexivity]|].
      assert (NI : ~ In i rest) by (inversion ND; assumption). assert (ND' : NoDup rest) by (inversion ND; assumption).
      assert (FR : filter (fun j => negb (Nat.eqb j i)) (i :: rest) = rest).
      { cbn. rewrite Nat.eqb_refl. cbn. clear - NI. induction rest as [|x r IHr]; [reflexivity|]. cbn.
        rewrite (proj2 (Nat.eqb_neq x i)) by (intros ->; apply NI; left; reflexivity). cbn. rewrite IHr; [reflexivity|]. intros H; apply NI; right; exact H. }
      destruct (OK i (or_introl eq_refl)) as (q & p & Hi & C).
      destruct (is_coordinator_queue q) eqn:Q.
      + assert (G2 : forall s0, sh s0 = At (i :: rest) -> nth_error (ents s0) i = Some (Entry q Select) ->
             (forall j, In j rest -> exists q p, nth_error (ents s0) j = Some (Entry q p) /\ (is_coordinator_queue q = true -> p = Select \/ p = Busy)) ->
             exists l s', run s0 l = Some s' /\ sh s' = Returned /\ expired s' = expired s0).
        { intros s0 S0 H0 OK0.
          assert (R2 : run s0 [Visit i; Done i] = Some (St (upd (upd (ents s0) i (Entry q Ending)) i (Entry q Ended)) (flag s0) (expired s0) (At rest))).
          { cbn [run step]. rewrite S0. cbn [existsb]. rewrite Nat.eqb_refl. cbn [orb]. rewrite H0. cbn [x_q x_at]. rewrite Q, FR. cbn [sh ents flag expired].
            rewrite (nth_upd_same _ _ _ _ H0). rewrite Nat.eqb_refl. cbn [x_at x_q]. reflexivity. }
          destruct (IH (St (upd (upd (ents s0) i (Entry q Ending)) i (Entry q Ended)) (flag s0) (expired s0) (At rest)) rest) as (l & s' & R & D & E).
          - cbn in LE. lia.
          - reflexivity.
          - intros j Hj. destruct (OK0 j Hj) as (q' & p' & A & P). exists q', p'. split; [|exact P]. cbn.
            rewrite !nth_upd_other; [exact A| |]; intros ->; contradiction.
          - exact ND'.
          - exists ([Visit i; Done i] ++ l), s'. rewrite (APP _ _ _ _ R2). split; [exact R|]. split; [exact D|exact E]. }
        destruct (C eq_refl) as [->| ->].
        * apply G2; auto. intros j Hj. apply OK. right. exact Hj.
        * assert (R1 : run s [Handled i] = Some (St (upd (ents s) i (Entry q Select)) (flag s) (expired s) (sh s))).
          { cbn [run step]. rewrite Hi. cbn [x_at]. reflexivity. }
          destruct (G2 (St (upd (ents s) i (Entry q Select)) (flag s) (expired s) (sh s))) as (l & s' & R & D & E).
          -- exact S.
          -- cbn. apply (nth_upd_same _ _ _ _ Hi).
          -- intros j Hj. destruct (OK j (or_intror Hj)) as (q' & p' & A & P). exists q', p'. split; [|exact P]. cbn.
             rewrite nth_upd_other; [exact A|]. intros ->. contradiction.
          -- exists ([Handled i] ++ l), s'. rewrite (APP _ _ _ _ R1). auto.
      + assert (R1 : run s [Visit i] = Some (St (ents s) (flag s) (expired s) (At rest))).
        { cbn [run step]. rewrite S. cbn [existsb]. rewrite Nat.eqb_refl. cbn [orb]. rewrite Hi. cbn [x_q]. rewrite Q, FR. reflexivity. }
        destruct (IH (St (ents s) (flag s) (expired s) (At rest)) rest) as (l & s' & R & D & E); auto.
        * cbn in LE. lia.
        * intros j Hj. cbn. apply OK. right. exact Hj.
        * exists ([Visit i] ++ l), s'. rewrite (APP _ _ _ _ R1). auto. }
  set (s1 := St (ents s) true (expired s) (At (filter (in_map s) (ids s)))).
  assert (R1 : run s [Shut] = Some s1) by (cbn; rewrite B; reflexivity).
  destruct (G _ s1 (filter (in_map s) (ids s)) (le_n _)) as (l & s' & R & D & E).
  - reflexivity.
  - intros i Hi. apply filter_In in Hi. destruct Hi as [Hi M]. unfold in_map in M. destruct (nth_error (ents s) i) as [[q p]|] eqn:X; [|discriminate].
    exists q, p. split; [exact X|]. intros Q. specialize (NL i q p X Q). cbn in M. destruct p; cbn in *; try discriminate; auto.
  - apply NoDup_filter. apply seq_NoDup.
  - exists ([Shut] ++ l), s'. rewrite (APP _ _ _ _ R1). auto.
Qed.

(* ------------------------------------------------------------------ *)
(** * The hypotheses are met *)
Example C68_nonvacuous : exists s, run empty [New "jobs"; New "default"; Message 0] = Some s /\ sh s = Before
  /\ nth_error (ents s) 0 = Some (Entry "jobs" Busy) /\ is_coordinator_queue "jobs" = true
  /\ exists s', run s [Shut; Visit 1; Handled 0; Visit 0; Done 0; Finish] = Some s' /\ sh s' = Returned.
Proof. eexists. split; [vm_compute; reflexivity|]. repeat match goal with |- _ /\ _ => split end; try reflexivity. eexists. split; vm_compute; reflexivity. Qed.
Example C68_hang_nonvacuous : exists s, run empty [New "jobs"; Closed 0; Look 0; Attempt 0 true false] = Some s /\ sh s = Before
  /\ nth_error (ents s) 0 = Some (Entry "jobs" Gone) /\ nth_error (ents s) 1 = Some (Entry "jobs" Select).
Proof. eexists. split; [vm_compute; reflexivity|]. repeat split. Qed.
(** the queues of workers are not waited for: a task handler may still be running when Shutdown has returned *)
Example C68_worker_queues_are_not_waited_for : exists s, run empty [New "default"; Message 0; Shut; Visit 0; Finish] = Some s
  /\ sh s = Returned /\ nth_error (ents s) 0 = Some (Entry "default" Busy).
Proof. eexists. split; [vm_compute; reflexivity|]. split; reflexivity. Qed.

Print Assumptions C68_shutdown_hangs_after_a_reconnect.
Print Assumptions C68_shutdown_waits_for_the_coordinator.
Print Assumptions C68_shutdown_completes_without_losses.
Example C68_event_subscription_nonvacuous : exists s1, run empty [New "x-ev1"; CtxDone 0] = Some s1.
Proof. eexists. vm_compute. reflexivity. Qed.
Print Assumptions C68_event_subscription_ends.
Print Assumptions C68_twenty_attempts.
