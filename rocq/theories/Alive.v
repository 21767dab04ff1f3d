(** C97: a live node is shown alive, a dead one is not.
    internal/worker/worker.go:208-249 (sendHeartbeats), 276-289 (Stop); internal/coordinator/coordinator.go:351-386 (the
    same loop without a health check: always UP); with the handling of heartbeats (Heartbeat.v: heartbeat.go,
    postgres.go:524-590, record.go:284-304).

    The loop of one node, in real time (microseconds).  Times of the node and of the coordinator are of one clock. *)
From Verif Require Import Types World Handlers Heartbeat.
Open Scope string_scope.
Open Scope list_scope.
Open Scope Z_scope.

(** Where the loop is: in the health check; publishing this heartbeat; in the select (240-246); returned *)
Inductive phase := Checking | Publishing (n : node) | Resting | Ended.
(** The loop: its phase, since when, what time it is; for the specification the heartbeats published, with the time at
    which the broker took them; the calls of cancel that wait for the function to return (211) *)
Record loop := mkLoop { l_phase : phase; l_since : time; l_now : time; l_sent : list (time * node); l_deferred : nat }.

Section Node.
(** the node's identifier, the fields of its heartbeats that are of no concern here, and how long, at most, a health
    check, the publication of a heartbeat and the wake-up after the pause take: bounds on what the surroundings do
    (unbounded in general) *)
Variables (me : id) (CHECK PUBLISH WAKE : Z).
(** worker.go:226-237: status DOWN iff the health check failed (an error, or no answer within five seconds) *)
Definition heartbeat (t : time) (healthy : bool) (rest : node) : node :=
  mkNode me (n_name rest) (n_started rest) (n_cpu rest) t (n_queue rest) (if healthy then NUp else NDown) (n_hostname rest) (n_port rest) (n_taskcount rest) (n_version rest).
(** worker.go:208-249.  Go's steps are instantaneous; time passes between them. *)
Inductive lstep : loop -> loop -> Prop :=
(* 210-225 *)
| l_check : forall s t m d healthy rest, lstep (mkLoop Checking s t m d) (mkLoop (Publishing (heartbeat t healthy rest)) t t m (S d))
(* 226-242: published, or not (the error is only logged) *)
| l_publish : forall n s t m d, lstep (mkLoop (Publishing n) s t m d) (mkLoop Resting t t (m ++ [(t, n)]) d)
(* 245 *)
| l_again : forall s t m d, s + HEARTBEAT_RATE <= t -> lstep (mkLoop Resting s t m d) (mkLoop Checking t t m d)
(* 243-244: Stop's send on w.stop is taken *)
| l_stop : forall s t m d, lstep (mkLoop Resting s t m d) (mkLoop Ended t t m 0)
(* time passes, within the bounds *)
| l_wait : forall p s t t' m d, t <= t' ->
    match p with Checking => t' <= s + CHECK | Publishing _ => t' <= s + PUBLISH | Resting => t' <= s + HEARTBEAT_RATE + WAKE | Ended => True end ->
    lstep (mkLoop p s t m d) (mkLoop p s t' m d).
(** 242-246: the publication fails: the round is lost *)
Inductive lost : loop -> loop -> Prop :=
| l_lost : forall n s t m d, lost (mkLoop (Publishing n) s t m d) (mkLoop Resting t t m d).
(** executions in which nothing is lost, and in which anything may be *)
Inductive lrun : loop -> loop -> Prop :=
| lr_nil : forall l, lrun l l
| lr_step : forall l l1 l2, lrun l l1 -> lstep l1 l2 -> lrun l l2.
Inductive lossy : loop -> loop -> Prop :=
| ls_nil : forall l, lossy l l
| ls_step : forall l l1 l2, lossy l l1 -> lstep l1 l2 -> lossy l l2
| ls_lost : forall l l1 l2, lossy l l1 -> lost l1 l2 -> lossy l l2.
(** worker.go:272: go w.sendHeartbeats() *)
Definition begun (t : time) : loop := mkLoop Checking t t [] 0.

(** the longest the loop may go without a fresh heartbeat having been published *)
Definition gap : Z := HEARTBEAT_RATE + CHECK + 2 * PUBLISH + WAKE.
(** [t0] is when the loop began; within this much the first heartbeat is out *)
Definition first_by (t0 : time) : time := t0 + CHECK + PUBLISH.

(** ** Specification *)
(** at [t] there is a heartbeat, published by then, that is at most [g] old *)
Definition fresh_at (g : Z) (m : list (time * node)) (t : time) : Prop := exists p n, In (p, n) m /\ p <= t /\ t - g <= n_heartbeat n.

Definition stamp (m : list (time * node)) (x : Z) : Prop := exists p n, In (p, n) m /\ n_heartbeat n = x.
Definition linv (t0 : time) (l : loop) : Prop :=
  t0 <= l_since l /\ l_since l <= l_now l /\
  (forall p n, In (p, n) (l_sent l) -> n_id n = me /\ t0 <= n_heartbeat n <= p /\ p <= l_now l) /\
  (forall n, l_phase l = Publishing n -> n_heartbeat n = l_since l /\ n_id n = me /\ l_now l <= l_since l + PUBLISH) /\
  (l_phase l = Checking -> l_now l <= l_since l + CHECK) /\
  (l_phase l = Resting -> l_now l <= l_since l + HEARTBEAT_RATE + WAKE) /\
  (* the newest heartbeat published, or none and the first round *)
  (l_phase l <> Ended ->
   (l_sent l = [] /\ l_since l <= t0 + (match l_phase l with Checking => 0 | _ => CHECK end) /\ l_phase l <> Resting) \/
   (exists p n, In (p, n) (l_sent l) /\ p <= l_since l /\
      l_since l - n_heartbeat n <= match l_phase l with Resting => PUBLISH | Checking => PUBLISH + HEARTBEAT_RATE + WAKE | _ => PUBLISH + HEARTBEAT_RATE + WAKE + CHECK end)) /\
  (forall t, first_by t0 < t -> t <= (match l_phase l with Ended => l_since l | _ => l_now l end) -> fresh_at gap (l_sent l) t).

Lemma fresh_more : forall g m x t, fresh_at g m t -> fresh_at g (m ++ x) t.
Proof. intros g m x t (p & n & I & A & B). exists p, n. split; [apply in_or_app; left; exact I|]. split; assumption. Qed.

Hypothesis CHECK_pos : 0 <= CHECK.
Hypothesis PUBLISH_pos : 0 <= PUBLISH.
Hypothesis WAKE_pos : 0 <= WAKE.

Lemma linv_step : forall t0 l l', lstep l l' -> linv t0 l -> linv t0 l'.
Proof.
  intros t0 l l' S (A & B & C & D & E & F & N & G).
  assert (RATE : 0 <= HEARTBEAT_RATE) by (unfold HEARTBEAT_RATE; lia).
  destruct S as [s t m d healthy rest|n s t m d|s t m d R|s t m d|p s t t' m d L BB]; unfold linv; cbn [l_phase l_since l_now l_sent] in *.
  - assert (E' := E eq_refl). split; [lia|]. split; [lia|]. split; [exact C|]. split.
    { intros n K. injection K as <-. cbn. split; [reflexivity|]. split; [reflexivity|lia]. }
    split; [discriminate|]. split; [discriminate|]. split; [|exact G].
    intros _. destruct (N ltac:(discriminate)) as [(N1 & N2 & _)|(p & n & I & P1 & P2)].
    + left. split; [exact N1|]. split; [lia|discriminate].
    + right. exists p, n. split; [exact I|]. split; [lia|lia].
  - destruct (D n eq_refl) as (D1 & D2 & D3). split; [lia|]. split; [lia|]. split.
    { intros p x I. apply in_app_or in I. destruct I as [I|[I|[]]]; [exact (C p x I)|]. injection I as <- <-. split; [exact D2|]. split; [lia|lia]. }
    split; [discriminate|]. split; [discriminate|]. split; [intros _; lia|]. split.
    { intros _. right. exists t, n. split; [apply in_or_app; right; left; reflexivity|]. split; [lia|lia]. }
    intros u U1 U2. apply fresh_more. exact (G u U1 U2).
  - split; [lia|]. split; [lia|]. split; [exact C|]. split; [discriminate|]. split; [intros _; lia|]. split; [discriminate|]. split; [|exact G].
    intros _. destruct (N ltac:(discriminate)) as [(_ & _ & N3)|(p & n & I & P1 & P2)]; [congruence|].
    right. exists p, n. split; [exact I|]. assert (F' := F eq_refl). split; [lia|lia].
  - split; [lia|]. split; [lia|]. split; [exact C|]. split; [discriminate|]. split; [discriminate|]. split; [discriminate|]. split; [congruence|exact G].
  - split; [lia|]. split; [lia|]. split; [intros q n I; destruct (C q n I) as (C1 & C2 & C3); split; [exact C1|]; split; lia|]. split.
    { intros n ->. destruct (D n eq_refl) as (D1 & D2 & D3). split; [exact D1|]. split; [exact D2|lia]. }
    split; [intros ->; exact BB|]. split; [intros ->; exact BB|]. split; [exact N|].
    intros u U1 U2. destruct p as [|x| |].
    4: exact (G u U1 U2).
    all: destruct (Z.le_gt_cases u t) as [K|K]; [exact (G u U1 K)|].
    all: destruct (N ltac:(discriminate)) as [(N1 & N2 & N3)|(q & n & I & P1 & P2)].
    all: try congruence.
    all: try (exists q, n; split; [exact I|]; split; [lia|]; unfold gap in *; lia).
    all: unfold first_by in U1; lia.
Qed.
Lemma linv_begun : forall t0, linv t0 (begun t0).
Proof.
  intros t0. unfold linv, begun; cbn. split; [lia|]. split; [lia|]. split; [intros p n []|]. split; [discriminate|]. split; [lia|]. split; [discriminate|]. split.
  - intros _. left. split; [reflexivity|]. split; [lia|discriminate].
  - intros t U1 U2. unfold first_by in U1. lia.
Qed.
Lemma linv_run : forall t0 l, lrun (begun t0) l -> linv t0 l.
Proof.
  intros t0 l R. remember (begun t0) as b eqn:E. induction R as [l|l l1 l2 R IH S]; [subst l; apply linv_begun|exact (linv_step _ _ _ S (IH E))].
Qed.

(** While the loop runs, once the first heartbeat is due there is at every moment one, published by then, that is no
    older than the bounds add up to. *)
Theorem C97_heartbeats_keep_coming : forall t0 l t, lrun (begun t0) l -> l_phase l <> Ended -> first_by t0 < t -> t <= l_now l ->
  exists p n, In (p, n) (l_sent l) /\ n_id n = me /\ p <= t /\ t - (HEARTBEAT_RATE + CHECK + 2 * PUBLISH + WAKE) <= n_heartbeat n.
Proof.
  intros t0 l t R NE U1 U2. destruct (linv_run t0 l R) as (_ & _ & C & _ & _ & _ & _ & G).
  destruct (G t U1) as (p & n & I & A & B); [destruct (l_phase l); try exact U2; congruence|].
  exists p, n. split; [exact I|]. split; [apply (C p n I)|]. split; [exact A|exact B].
Qed.

(** A live node is shown alive.  [delay] bounds the time from the publication of a heartbeat until it has been handled;
    the handled heartbeats with this node's identifier are among those it published.  If all bounds together stay within
    two heartbeat periods, then from the first heartbeat on the node is known, is never shown OFFLINE, is among the
    active nodes, and what is shown is the status of one of its heartbeats of the last minute. *)
Theorem C97_live_node : forall t0 l delay s t, lrun (begun t0) l -> l_phase l <> Ended ->
  run t s -> t <= l_now l -> first_by t0 + delay < l_now l -> 0 <= delay ->
  (forall n, In n (applied s) -> n_id n = me -> exists p, In (p, n) (l_sent l)) ->
  (forall p n, In (p, n) (l_sent l) -> p <= l_now l - delay -> In n (applied s)) ->
  HEARTBEAT_RATE + CHECK + 2 * PUBLISH + WAKE + delay <= 60 * 10 ^ 6 ->
  exists r, rows s me = Some r /\ n_status (to_node (l_now l) r) <> NOffline /\
    l_now l - LAST_HEARTBEAT_TIMEOUT < n_heartbeat r /\
    exists p n, In (p, n) (l_sent l) /\ l_now l - 60 * 10 ^ 6 <= n_heartbeat n /\ n_status (to_node (l_now l) r) = n_status n.
Proof.
  intros t0 l delay s t R NE RS T U D0 A1 A2 B.
  destruct (linv_run t0 l R) as (_ & _ & C & _).
  destruct (C97_heartbeats_keep_coming t0 l (l_now l - delay) R NE) as (p & n & I & M & P & Q); [lia|lia|].
  pose proof (C36_reports_latest t s me (l_now l) RS T) as X. pose proof (A2 p n I P) as An.
  destruct (rows s me) as [r|]; [|destruct (X n An M)]. destruct X as (m & (L1 & L2 & L3) & X2 & _ & _ & X3 & X4).
  pose proof (L3 n An M) as L. destruct (A1 m L1 L2) as (pm & Im).
  change (60 * 10 ^ 6) with 60000000 in *. change two_periods with 60000000 in X3.
  assert (NO : n_status m <> NOffline).
  { assert (ST : n_status m = NUp \/ n_status m = NDown).
    { clear - R Im. remember (begun t0) as b eqn:E.
      assert (K : (forall q x, In (q, x) (l_sent l) -> n_status x = NUp \/ n_status x = NDown) /\ (forall x, l_phase l = Publishing x -> n_status x = NUp \/ n_status x = NDown)).
      { clear pm m Im. induction R as [l|l l1 l2 R IH S]; [subst l; split; [intros q x []|discriminate]|]. destruct (IH E) as (K1 & K2). clear IH.
        destruct S as [s t m d healthy rest|n s t m d|s t m d W|s t m d|p s t t' m d L BB]; cbn [l_sent l_phase] in *.
        - split; [exact K1|]. intros x K. injection K as <-. cbn. destruct healthy; auto.
        - split; [|discriminate]. intros q x I. apply in_app_or in I. destruct I as [I|[I|[]]]; [exact (K1 q x I)|]. injection I as <- <-. exact (K2 n eq_refl).
        - split; [exact K1|discriminate].
        - split; [exact K1|discriminate].
        - split; [exact K1|exact K2]. }
      exact (proj1 K pm m Im). }
    destruct ST as [-> | ->]; discriminate. }
  exists r. split; [reflexivity|]. rewrite to_node_heartbeat in X2.
  assert (NF : n_status (to_node (l_now l) r) <> NOffline).
  { intros O. apply X3 in O. destruct O as [O|(_ & O)]; [exact (NO O)|lia]. }
  split; [exact NF|]. split; [unfold LAST_HEARTBEAT_TIMEOUT; change (300 * 10 ^ 6) with 300000000; lia|].
  exists pm, m. split; [exact Im|]. split; [lia|]. destruct X4 as [X4|X4]; [exfalso; exact (NF X4)|exact X4].
Qed.

(** Whatever is lost or slow, nothing is published once the loop has ended, and it never begins again. *)
Theorem C97_ended : forall t0 l l', lossy (begun t0) l -> l_phase l = Ended -> lossy l l' -> l_phase l' = Ended /\ l_sent l' = l_sent l.
Proof.
  intros t0 l l' _ E R. revert E. induction R as [l|l l1 l2 R IH S|l l1 l2 R IH S]; intros E; [split; [exact E|reflexivity]| |]; destruct (IH E) as (P & Q); destruct S; cbn in *; try discriminate; split; assumption.
Qed.

(** Heartbeats do not come more often than the period says, one for each period that has passed and the first. *)
Theorem C97_not_too_often : forall t0 l, lossy (begun t0) l -> HEARTBEAT_RATE * Z.of_nat (List.length (l_sent l)) <= l_now l - t0 + HEARTBEAT_RATE.
Proof.
  intros t0 l R. assert (RATE : 0 <= HEARTBEAT_RATE) by (unfold HEARTBEAT_RATE; lia).
  assert (H : l_since l <= l_now l /\ HEARTBEAT_RATE * Z.of_nat (List.length (l_sent l)) <= l_since l - t0 + match l_phase l with Resting | Ended => HEARTBEAT_RATE | _ => 0 end).
  { remember (begun t0) as b eqn:E. induction R as [l|l l1 l2 R IH S|l l1 l2 R IH S].
    - subst l. cbn. lia.
    - destruct (IH E) as (A & B). destruct S; cbn [l_since l_now l_sent l_phase] in *; rewrite ?app_length; cbn [List.length]; split; lia.
    - destruct (IH E) as (A & B). destruct S; cbn [l_since l_now l_sent l_phase] in *; split; lia. }
  destruct H as (A & B). destruct (l_phase l); lia.
Qed.

(** A dead node is not shown alive: when no heartbeat of it is later than [dead], then more than a minute after that it
    is not UP, and after five minutes it is not among the active nodes. *)
Theorem C97_dead_node : forall s t now dead r, run t s -> t <= now -> rows s me = Some r ->
  (forall n, In n (applied s) -> n_id n = me -> n_heartbeat n <= dead) ->
  (dead + 60 * 10 ^ 6 < now -> n_status (to_node now r) <> NUp) /\
  (dead + 300 * 10 ^ 6 <= now -> ~ now - LAST_HEARTBEAT_TIMEOUT < n_heartbeat r).
Proof.
  intros s t now dead r RS T E D. pose proof (C36_reports_latest t s me now RS T) as X. rewrite E in X.
  destruct X as (m & (L1 & L2 & L3) & X2 & _ & _ & X3 & X4). pose proof (D m L1 L2) as Dm. rewrite to_node_heartbeat in X2.
  change (60 * 10 ^ 6) with 60000000. change two_periods with 60000000 in X3. unfold LAST_HEARTBEAT_TIMEOUT. change (300 * 10 ^ 6) with 300000000.
  split; [|lia]. intros K S. destruct X4 as [X4|X4]; [congruence|].
  assert (O : n_status (to_node now r) = NOffline) by (apply X3; right; split; [congruence|lia]). congruence.
Qed.

(** ** What does not hold *)
(** Stop is a send on an unbuffered channel (worker.go:278) that only the select receives: once the loop has ended no
    step takes it, so a second Stop waits for ever; and while a publication or a health check hangs the first one does. *)
Definition takes_stop (l l' : loop) : Prop := l_phase l <> Ended /\ l_phase l' = Ended.
Theorem C97_stop_waits_refuted : (forall l l' l'', l_phase l = Ended -> lossy l l' -> lstep l' l'' -> ~ takes_stop l' l'') /\
  (forall l l' n, l_phase l = Publishing n \/ l_phase l = Checking -> lstep l l' -> ~ takes_stop l l').
Proof.
  split.
  - intros l l' l'' E R _ (N & _). apply N. clear N l''. induction R as [l|l l1 l2 R IH S|l l1 l2 R IH S]; [exact E| |]; specialize (IH E); destruct S; cbn in *; try discriminate; exact IH.
  - intros l l' n P S (_ & K). destruct S; cbn in *; destruct P; congruence.
Qed.
(** defer in a loop (worker.go:211): the calls of cancel pile up until the worker stops *)
Theorem C97_defers_pile_up_refuted : forall (k : nat) t0, exists l, lrun (begun t0) l /\ l_deferred l = k.
Proof.
  intros k t0. assert (H : exists l t, lrun (begun t0) l /\ l_deferred l = k /\ l_phase l = Checking /\ l = mkLoop Checking t t (l_sent l) k).
  { induction k as [|k (l & t & R & _ & _ & E)]; [exists (begun t0), t0; split; [constructor|]; split; [reflexivity|split; reflexivity]|].
    rewrite E in R. set (n := heartbeat t true (mkNode me "" 0 0 0 "" NUp "" 0 0 "")).
    pose proof (lr_step _ _ _ R (l_check t t (l_sent l) k true (mkNode me "" 0 0 0 "" NUp "" 0 0 ""))) as R1. fold n in R1.
    pose proof (lr_step _ _ _ R1 (l_publish n t t (l_sent l) (S k))) as R2.
    assert (RATE : 0 <= HEARTBEAT_RATE) by (unfold HEARTBEAT_RATE; lia).
    pose proof (lr_step _ _ _ R2 (l_wait Resting t t (t + HEARTBEAT_RATE) (l_sent l ++ [(t, n)]) (S k) ltac:(lia) ltac:(cbn; lia))) as R3.
    pose proof (lr_step _ _ _ R3 (l_again t (t + HEARTBEAT_RATE) (l_sent l ++ [(t, n)]) (S k) ltac:(lia))) as R4.
    exists (mkLoop Checking (t + HEARTBEAT_RATE) (t + HEARTBEAT_RATE) (l_sent l ++ [(t, n)]) (S k)), (t + HEARTBEAT_RATE).
    split; [exact R4|]. split; [reflexivity|]. split; reflexivity. }
  destruct H as (l & _ & R & E & _). exists l. split; assumption.
Qed.
End Node.
Print Assumptions C97_heartbeats_keep_coming.
Print Assumptions C97_live_node.
Print Assumptions C97_ended.
Print Assumptions C97_not_too_often.
Print Assumptions C97_dead_node.
Print Assumptions C97_stop_waits_refuted.
Print Assumptions C97_defers_pile_up_refuted.

(** One lost heartbeat is enough: a running node with instantaneous checks, publications and handling is shown OFFLINE
    when a single publication fails and the pause before the next takes one microsecond more than it should. *)
Definition rest0 : node := mkNode 0%N "w" 0 10 0 "x-w" NUp "h" 8100 0 "v".
Theorem C97_one_lost_refuted : exists l s t, lossy 5%N 0 0 1 (begun 0) l /\ l_phase l = Checking /\ run t s /\ t <= l_now l /\
  applied s = map snd (l_sent l) /\ exists r, rows s 5%N = Some r /\ n_status r = NUp /\ n_status (to_node (l_now l) r) = NOffline.
Proof.
  set (n0 := heartbeat 5%N 0 true rest0).
  exists (mkLoop Checking 60000001 60000001 [(0, n0)] 2), (mkState (handle 0 n0 (fun _ => None)) [] [n0]), 0.
  split; [|split; [reflexivity|split; [|split; [discriminate|split; [reflexivity|]]]]].
  - assert (R1 : lossy 5%N 0 0 1 (begun 0) (mkLoop (Publishing n0) 0 0 [] 1)) by (eapply ls_step; [apply ls_nil|exact (l_check 5%N 0 0 1 0 0 [] 0 true rest0)]).
    assert (R2 := ls_step _ _ _ _ _ _ _ R1 (l_publish 5%N 0 0 1 n0 0 0 [] 1)). cbn [app] in R2.
    assert (R3 := ls_step _ _ _ _ _ _ _ R2 (l_wait 5%N 0 0 1 Resting 0 0 30000000 [(0, n0)] 1 ltac:(lia) ltac:(unfold HEARTBEAT_RATE; lia))).
    assert (R4 := ls_step _ _ _ _ _ _ _ R3 (l_again 5%N 0 0 1 0 30000000 [(0, n0)] 1 ltac:(unfold HEARTBEAT_RATE; lia))).
    assert (R5 := ls_step _ _ _ _ _ _ _ R4 (l_check 5%N 0 0 1 30000000 30000000 [(0, n0)] 1 true rest0)).
    assert (R6 := ls_lost _ _ _ _ _ _ _ R5 (l_lost _ 30000000 30000000 [(0, n0)] 2)).
    assert (R7 := ls_step _ _ _ _ _ _ _ R6 (l_wait 5%N 0 0 1 Resting 30000000 30000000 60000001 [(0, n0)] 2 ltac:(lia) ltac:(unfold HEARTBEAT_RATE; lia))).
    exact (ls_step _ _ _ _ _ _ _ R7 (l_again 5%N 0 0 1 30000000 60000001 [(0, n0)] 2 ltac:(unfold HEARTBEAT_RATE; lia))).
  - exact (handle_run 0 start 0 n0 (run_start 0) eq_refl (Z.le_refl 0)).
  - exists n0. split; [reflexivity|]. split; reflexivity.
Qed.
Print Assumptions C97_one_lost_refuted.

(** A case that meets the hypotheses of [C97_live_node]: the first heartbeat out and handled, ten seconds later. *)
Example a_live_node : exists l s t, lrun 5%N (5 * 10 ^ 6) 10 10 (begun 0) l /\ l_phase l = Resting /\ run t s /\ t <= l_now l /\
  first_by (5 * 10 ^ 6) 10 0 + 10 < l_now l /\ applied s = map snd (l_sent l) /\ l_sent l <> [] /\
  HEARTBEAT_RATE + 5 * 10 ^ 6 + 2 * 10 + 10 + 10 <= 60 * 10 ^ 6.
Proof.
  set (n0 := heartbeat 5%N 0 false rest0).
  exists (mkLoop Resting 0 10000000 [(0, n0)] 1), (mkState (handle 0 n0 (fun _ => None)) [] [n0]), 0.
  split; [|split; [reflexivity|split; [|split; [discriminate|split; [reflexivity|split; [reflexivity|split; [discriminate|vm_compute; discriminate]]]]]]].
  - assert (R1 : lrun 5%N (5 * 10 ^ 6) 10 10 (begun 0) (mkLoop (Publishing n0) 0 0 [] 1)) by (eapply lr_step; [apply lr_nil|exact (l_check 5%N (5 * 10 ^ 6) 10 10 0 0 [] 0 false rest0)]).
    assert (R2 := lr_step _ _ _ _ _ _ _ R1 (l_publish 5%N (5 * 10 ^ 6) 10 10 n0 0 0 [] 1)). cbn [app] in R2.
    exact (lr_step _ _ _ _ _ _ _ R2 (l_wait 5%N (5 * 10 ^ 6) 10 10 Resting 0 0 10000000 [(0, n0)] 1 ltac:(lia) ltac:(unfold HEARTBEAT_RATE; lia))).
  - exact (handle_run 0 start 0 n0 (run_start 0) eq_refl (Z.le_refl 0)).
Qed.
