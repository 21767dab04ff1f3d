(** C67: what the RabbitMQ broker does with a message between publication and acknowledgement.
    broker/rabbitmq.go:216-403 (PublishTask, SubscribeForTasks, subscribe), 405-452 (serialize, deserialize),
    454-531 (declareQueue, publish).
    The server is modelled by the AMQP rules the code relies on: a message published to the default exchange goes to the
    queue of that name if there is one and is dropped otherwise (mandatory=false, :514); a consumer with Qos 1 (:255) has
    at most one unacknowledged message; a channel that closes gives its unacknowledged message back to the queue with
    the redelivered flag set; a message that was never given back does not carry the flag. The order in which the server
    hands out waiting messages (priorities) is left open. *)
From Coq Require Import String List Bool Arith Lia Permutation.
Import ListNotations.
Open Scope string_scope.
Open Scope list_scope.

Section Rabbit.
(** json.Unmarshal accepts this body for this type (:420-449); any predicate *)
Variable parses : string -> string -> bool.

(* ------------------------------------------------------------------ *)
(** * The code *)
Definition task_type := "*tork.Task".
Definition redeliveries := "redeliveries".
(** rabbitmq.go:405-409 *)
Definition serializable (ty : string) : bool :=
  existsb (String.eqb ty) [task_type; "*tork.Job"; "*tork.Node"; "*tork.TaskLogPart"; "*tork.TaskProgress"; "*tork.ScheduledJob"].
(** rabbitmq.go:417-452 *)
Definition decodes (ty body : string) : bool :=
  existsb (String.eqb ty) [task_type; "*tork.Job"; "*tork.Node"; "*tork.TaskLogPart"; "*tork.ScheduledJob"] && parses ty body.

(** a message held by the server; every publication gets a number of its own *)
Record entry := Entry { e_no : nat; e_type : string; e_body : string; e_red : bool }.
Inductive verdict := VAck | VReject.
(** where the consuming goroutine is: waiting in its select (:284), about to look at a delivery (:326), inside the handler
    (:377), about to acknowledge or reject (:363, :383, :390) *)
Inductive phase := Idle | Received (e : entry) | Running (e : entry) | Settling (e : entry) (v : verdict).
(** a subscription: its queue, whether its channel is open, the message the server holds as unacknowledged on it *)
Record sub := Sub { s_q : string; s_live : bool; s_out : option entry; s_ph : phase }.

(** what became of a publication the caller was told had succeeded *)
Inductive route := Routed | NoQueue | LostOnTheWay.
Inductive ev :=
| Published (no : nat) (q ty body : string) (r : route)
| PublishFailed (q ty body : string)
| Called (i no : nat) (q ty body : string)
| Returned (i no : nat) (ok : bool)
| Undecodable (i no : nat)
| Forwarded (old new : nat)
| ForwardFailed (old : nat)
| Acked (no : nat)
| Rejected (no : nat)
| Requeued (no : nat)
| Discarded (no : nat).

Record st := St { declared : list string; waiting : list (string * entry); subs : list sub; next : nat; hist : list ev }.
Definition empty : st := St [] [] [] 0 [].

(** outcome of one publish call as decided by the network: an error (:497, :501, :524), a frame that never arrives (there
    are no publisher confirms), or arrival *)
Inductive net := NErr | NLost | NOk.

(** rabbitmq.go:491-531; the result says whether nil was returned and under which number it went out *)
Definition publish (s : st) (q ty body : string) (n : net) : st * option nat :=
  if serializable ty then
    match n with
    | NErr => (St (declared s) (waiting s) (subs s) (next s) (PublishFailed q ty body :: hist s), None)
    | NLost => (St (declared s) (waiting s) (subs s) (S (next s)) (Published (next s) q ty body LostOnTheWay :: hist s), Some (next s))
    | NOk =>
        if existsb (String.eqb q) (declared s)
        then (St (declared s) (waiting s ++ [(q, Entry (next s) ty body false)]) (subs s) (S (next s)) (Published (next s) q ty body Routed :: hist s), Some (next s))
        else (St (declared s) (waiting s) (subs s) (S (next s)) (Published (next s) q ty body NoQueue :: hist s), Some (next s))
    end
  else (St (declared s) (waiting s) (subs s) (next s) (PublishFailed q ty body :: hist s), None).

Definition set_subs (s : st) (l : list sub) : st := St (declared s) (waiting s) l (next s) (hist s).
Definition log (s : st) (e : ev) : st := St (declared s) (waiting s) (subs s) (next s) (e :: hist s).
Fixpoint upd {A} (l : list A) (i : nat) (a : A) : list A :=
  match l, i with [], _ => [] | _ :: l, O => a :: l | x :: l, S i => x :: upd l i a end.
Fixpoint del {A} (l : list A) (i : nat) : list A :=
  match l, i with [], _ => [] | _ :: l, O => l | x :: l, S i => x :: del l i end.
Definition set_sub (s : st) (i : nat) (b : sub) : st := set_subs s (upd (subs s) i b).
Definition with_phase (b : sub) (p : phase) : sub := Sub (s_q b) (s_live b) (s_out b) p.

(** rabbitmq.go:326-394, from the receipt of a delivery to the call of the handler *)
Definition take (s : st) (i : nat) (b : sub) (e : entry) (n : net) : st :=
  if e_red e && String.eqb (e_type e) task_type then
    let s' :=
      if decodes (e_type e) (e_body e)
      then match publish s redeliveries (e_type e) (e_body e) n with
           | (s, Some new) => log s (Forwarded (e_no e) new)
           | (s, None) => log s (ForwardFailed (e_no e))
           end
      else log s (Undecodable i (e_no e)) in
    set_sub s' i (with_phase b (Settling e VAck))
  else if decodes (e_type e) (e_body e)
  then log (set_sub s i (with_phase b (Running e))) (Called i (e_no e) (s_q b) (e_type e) (e_body e))
  else log (set_sub s i (with_phase b Idle)) (Undecodable i (e_no e)).

(** the acknowledgement or rejection (requeue=false: the message is dropped); on a closed channel it has no effect *)
Definition settle (s : st) (i : nat) (b : sub) (e : entry) (v : verdict) : st :=
  if s_live b
  then log (set_sub s i (Sub (s_q b) true None Idle)) (match v with VAck => Acked (e_no e) | VReject => Rejected (e_no e) end)
  else set_sub s i (with_phase b Idle).

(** the channel closes: connection lost, consumer timeout (:473), shutdown *)
Definition lose (s : st) (i : nat) (b : sub) : st :=
  let b' := Sub (s_q b) false None (s_ph b) in
  match s_out b with
  | None => set_sub s i b'
  | Some e => St (declared s) ((s_q b, Entry (e_no e) (e_type e) (e_body e) true) :: waiting s) (upd (subs s) i b') (next s) (Requeued (e_no e) :: hist s)
  end.

(** rabbitmq.go:200-214 *)
Definition outs (l : list sub) : list entry := flat_map (fun b => match s_out b with Some e => [e] | None => [] end) l.
Definition delete_queue (s : st) (q : string) : st :=
  let on (x : string) := String.eqb x q in
  let gone_w := filter (fun p => on (fst p)) (waiting s) in
  let gone_s := outs (filter (fun b => on (s_q b)) (subs s)) in
  St (filter (fun x => negb (on x)) (declared s)) (filter (fun p => negb (on (fst p))) (waiting s))
     (map (fun b => if on (s_q b) then Sub (s_q b) false None (s_ph b) else b) (subs s)) (next s)
     (map (fun e => Discarded (e_no e)) (map snd gone_w ++ gone_s) ++ hist s).

Inductive act :=
| Declare (q : string)                           (* :454-489 *)
| Subscribe (q : string)                         (* :242-283; also the re-subscription of :330-341 *)
| Publish (q ty body : string) (n : net)         (* :216-231, 488, 543, 655, 660, 675 *)
| Deliver (i k : nat)                            (* the server hands the k-th waiting message to subscription i *)
| Take (i : nat) (n : net)                       (* :326-377 *)
| Finish (i : nat) (ok : bool)                   (* the handler returns, :377 *)
| Settle (i : nat)                               (* :363, :383, :390 *)
| Lose (i : nat)
| Delete (q : string)
| Expire (k : nat).                              (* the server drops a waiting message: x-message-ttl (:463), a crash *)

Definition step (s : st) (a : act) : option st :=
  match a with
  | Declare q => Some (if existsb (String.eqb q) (declared s) then s else St (q :: declared s) (waiting s) (subs s) (next s) (hist s))
  | Subscribe q => if existsb (String.eqb q) (declared s) then Some (set_subs s (subs s ++ [Sub q true None Idle])) else None
  | Publish q ty body n => Some (fst (publish s q ty body n))
  | Deliver i k =>
      match nth_error (subs s) i, nth_error (waiting s) k with
      | Some (Sub q true None Idle), Some (q', e) =>
          if String.eqb q q'
          then Some (St (declared s) (del (waiting s) k) (upd (subs s) i (Sub q true (Some e) (Received e))) (next s) (hist s))
          else None
      | _, _ => None
      end
  | Take i n => match nth_error (subs s) i with
                | Some b => match s_ph b with Received e => Some (take s i b e n) | _ => None end
                | None => None
                end
  | Finish i ok => match nth_error (subs s) i with
                   | Some b => match s_ph b with
                               | Running e => Some (log (set_sub s i (with_phase b (Settling e (if ok then VAck else VReject)))) (Returned i (e_no e) ok))
                               | _ => None end
                   | None => None
                   end
  | Settle i => match nth_error (subs s) i with
                | Some b => match s_ph b with Settling e v => Some (settle s i b e v) | _ => None end
                | None => None
                end
  | Lose i => match nth_error (subs s) i with Some b => if s_live b then Some (lose s i b) else None | None => None end
  | Delete q => Some (delete_queue s q)
  | Expire k => match nth_error (waiting s) k with
                | Some (_, e) => Some (log (St (declared s) (del (waiting s) k) (subs s) (next s) (hist s)) (Discarded (e_no e)))
                | None => None
                end
  end.
Fixpoint run (s : st) (l : list act) : option st :=
  match l with [] => Some s | a :: l => match step s a with Some s => run s l | None => None end end.

(* ------------------------------------------------------------------ *)
(** * Specification *)
(** a state after any history of publications, subscriptions, deliveries, handler results, losses and deletions *)
Definition reachable (s : st) : Prop := exists l, run empty l = Some s.
(** the numbers of the messages that reached a queue *)
Definition routed (h : list ev) : list nat := flat_map (fun e => match e with Published n _ _ _ Routed => [n] | _ => [] end) h.
(** the numbers of the messages the server has let go *)
Definition settled (h : list ev) : list nat :=
  flat_map (fun e => match e with Acked n | Rejected n | Discarded n => [n] | _ => [] end) h.
Definition held (s : st) : list nat := map (fun p => e_no (snd p)) (waiting s) ++ map e_no (outs (subs s)).
(** how often a handler was called for a message *)
Definition is_call (n : nat) (e : ev) : bool := match e with Called _ m _ _ _ => Nat.eqb m n | _ => false end.
Definition calls (n : nat) (h : list ev) : nat := length (filter (is_call n) h).

(* ------------------------------------------------------------------ *)
(** * Lists *)
Lemma nth_upd_same {A} : forall (l : list A) i a b, nth_error l i = Some a -> nth_error (upd l i b) i = Some b.
Proof. induction l as [|x l IH]; intros [|i] a b H; cbn in *; try discriminate; eauto. Qed.
Lemma nth_upd_other {A} : forall (l : list A) i j b, i <> j -> nth_error (upd l i b) j = nth_error l j.
Proof. induction l as [|x l IH]; intros [|i] [|j] b H; cbn; auto; try congruence. Qed.
Lemma del_perm {A} : forall (l : list A) k a, nth_error l k = Some a -> Permutation l (a :: del l k).
Proof.
  induction l as [|x l IH]; intros [|k] a H; cbn in *; try discriminate.
  - injection H as ->. apply Permutation_refl.
  - eapply Permutation_trans; [apply perm_skip; apply (IH _ _ H)|apply perm_swap].
Qed.
Lemma in_del {A} : forall (l : list A) k a, In a (del l k) -> In a l.
Proof. induction l as [|x l IH]; intros [|k] a H; cbn in *; auto. destruct H as [->|H]; eauto. Qed.
Lemma split_nth {A} : forall (l : list A) i a, nth_error l i = Some a ->
  exists l1 l2, l = l1 ++ a :: l2 /\ length l1 = i /\ forall b, upd l i b = l1 ++ b :: l2.
Proof.
  induction l as [|x l IH]; intros [|i] a H; cbn in *; try discriminate.
  - injection H as ->. exists [], l. auto.
  - destruct (IH _ _ H) as (l1 & l2 & -> & L & U). exists (x :: l1), l2. cbn. repeat split; auto. intros b. now rewrite U.
Qed.
Lemma outs_app : forall a b, outs (a ++ b) = outs a ++ outs b.
Proof. intros. unfold outs. apply flat_map_app. Qed.
Definition out1 (b : sub) : list entry := match s_out b with Some e => [e] | None => [] end.
Lemma outs_cons : forall b l, outs (b :: l) = out1 b ++ outs l.
Proof. reflexivity. Qed.

(* ------------------------------------------------------------------ *)
(** * Invariants *)
Definition phase_entry (p : phase) : option entry :=
  match p with Idle => None | Received e | Running e | Settling e _ => Some e end.
(** [e], on queue [q], is the message published under its number *)
Definition known (h : list ev) (q : string) (e : entry) : Prop :=
  In (Published (e_no e) q (e_type e) (e_body e) Routed) h /\ (e_red e = true -> In (Requeued (e_no e)) h).
(** an acknowledgement is justified *)
Definition ack_reason (h : list ev) (q : string) (no : nat) : Prop :=
  (exists i, In (Returned i no true) h)
  \/ (exists body, In (Published no q task_type body Routed) h /\ In (Requeued no) h
        /\ ((exists new, In (Forwarded no new) h) \/ In (ForwardFailed no) h \/ decodes task_type body = false)).
Definition rej_reason (h : list ev) (no : nat) : Prop := exists i, In (Returned i no false) h.
Definition sub_ok (h : list ev) (b : sub) : Prop :=
  (forall e, s_out b = Some e -> known h (s_q b) e)
  /\ (forall e, phase_entry (s_ph b) = Some e -> known h (s_q b) e)
  /\ (s_live b = false -> s_out b = None)
  /\ (s_live b = true -> forall e, phase_entry (s_ph b) = Some e -> s_out b = Some e)
  /\ (forall e, s_ph b = Settling e VAck -> ack_reason h (s_q b) (e_no e))
  /\ (forall e, s_ph b = Settling e VReject -> rej_reason h (e_no e)).

Record inv (s : st) : Prop := Inv {
  i_sub : forall b, In b (subs s) -> sub_ok (hist s) b;
  i_wait : forall q e, In (q, e) (waiting s) -> known (hist s) q e;
  i_perm : Permutation (held s ++ settled (hist s)) (routed (hist s));
  i_next : forall no q ty body r, In (Published no q ty body r) (hist s) -> no < next s;
  i_uniq : forall no q ty body r q' ty' body' r', In (Published no q ty body r) (hist s) -> In (Published no q' ty' body' r') (hist s) -> (q, ty, body, r) = (q', ty', body', r');
  i_nodup : NoDup (routed (hist s));
  i_called : forall i no q ty body, In (Called i no q ty body) (hist s) -> In (Published no q ty body Routed) (hist s) /\ decodes ty body = true;
  i_acked : forall no, In (Acked no) (hist s) -> exists q, ack_reason (hist s) q no;
  i_rejected : forall no, In (Rejected no) (hist s) -> rej_reason (hist s) no;
  i_forwarded : forall old new, In (Forwarded old new) (hist s) ->
     exists q body r, In (Published old q task_type body Routed) (hist s) /\ In (Published new redeliveries task_type body r) (hist s) /\ old < new;
  i_returned : forall i no ok, In (Returned i no ok) (hist s) -> exists i' q ty body, In (Called i' no q ty body) (hist s);
  i_running : forall b e, In b (subs s) -> s_ph b = Running e -> exists i q ty body, In (Called i (e_no e) q ty body) (hist s)
}.

Lemma known_mono : forall h h' q e, (forall x, In x h -> In x h') -> known h q e -> known h' q e.
Proof. intros h h' q e M [A B]. split; auto. Qed.
Lemma ack_mono : forall h h' q n, (forall x, In x h -> In x h') -> ack_reason h q n -> ack_reason h' q n.
Proof.
  intros h h' q n M [(i & H)|(body & A & B & C)]; [left; eauto|right]. exists body. repeat split; auto.
  destruct C as [(new & C)|[C|C]]; eauto.
Qed.
Lemma rej_mono : forall h h' n, (forall x, In x h -> In x h') -> rej_reason h n -> rej_reason h' n.
Proof. intros h h' n M (i & H). exists i. auto. Qed.
Lemma sub_mono : forall h h' b, (forall x, In x h -> In x h') -> sub_ok h b -> sub_ok h' b.
Proof.
  intros h h' b M (A & B & C & D & E & F). unfold sub_ok. repeat match goal with |- _ /\ _ => split end; auto.
  - intros e H. eapply known_mono; eauto.
  - intros e H. eapply known_mono; eauto.
  - intros e H. eapply ack_mono; eauto.
  - intros e H. eapply rej_mono; eauto.
Qed.
Lemma in_upd {A} : forall (l : list A) i (a x : A), In x (upd l i a) -> x = a \/ In x l.
Proof. induction l as [|y l IH]; intros [|i] a x H; cbn in *; auto; destruct H as [->|H]; auto. destruct (IH _ _ _ H); auto. Qed.

Lemma inv_empty : inv empty.
Proof. constructor; cbn; try (intros; contradiction); constructor. Qed.

Definition just (h : list ev) (e : ev) : Prop :=
  match e with
  | Published _ _ _ _ _ => False
  | Called _ no q ty body => In (Published no q ty body Routed) h /\ decodes ty body = true
  | Acked no => exists q, ack_reason h q no
  | Rejected no => rej_reason h no
  | Forwarded old new => exists q body r, In (Published old q task_type body Routed) h /\ In (Published new redeliveries task_type body r) h /\ old < new
  | Returned _ no _ => exists i' q ty body, In (Called i' no q ty body) h
  | _ => True
  end.
Definition running_ok (h : list ev) (b : sub) : Prop := forall e, s_ph b = Running e -> exists i q ty body, In (Called i (e_no e) q ty body) h.
Lemma routed_app : forall a b, routed (a ++ b) = routed a ++ routed b.
Proof. intros. apply flat_map_app. Qed.
Lemma settled_app : forall a b, settled (a ++ b) = settled a ++ settled b.
Proof. intros. apply flat_map_app. Qed.
Lemma routed_just : forall h add, Forall (just h) add -> routed add = [].
Proof. intros h add H. induction H as [|e l He _ IH]; [reflexivity|]. cbn. destruct e; cbn in *; auto; contradiction. Qed.

Lemma inv_change : forall s s' add, inv s -> hist s' = add ++ hist s -> next s' = next s ->
  Forall (just (hist s')) add ->
  (forall b, In b (subs s') -> sub_ok (hist s') b /\ running_ok (hist s') b) ->
  (forall q e, In (q, e) (waiting s') -> known (hist s') q e) ->
  Permutation (held s' ++ settled add) (held s) ->
  inv s'.
Proof.
  intros s s' add I H N J S W P.
  assert (M : forall x, In x (hist s) -> In x (hist s')) by (intros x Hx; rewrite H; apply in_or_app; auto).
  assert (PU : forall no q ty body r, In (Published no q ty body r) (hist s') -> In (Published no q ty body r) (hist s)).
  { intros no q ty body r Hx. rewrite H in Hx. apply in_app_or in Hx. destruct Hx as [Hx|Hx]; [|exact Hx].
    rewrite Forall_forall in J. destruct (J _ Hx). }
  assert (JJ : forall x, In x (hist s') -> In x (hist s) \/ just (hist s') x).
  { intros x Hx. rewrite H in Hx. apply in_app_or in Hx. destruct Hx as [Hx|Hx]; [right|left; exact Hx].
    rewrite Forall_forall in J. exact (J _ Hx). }
  constructor.
  - intros b Hb. exact (proj1 (S b Hb)).
  - exact W.
  - rewrite H, settled_app, routed_app, (routed_just _ _ J). cbn.
    eapply Permutation_trans; [|exact (i_perm _ I)]. rewrite app_assoc. apply Permutation_app_tail. exact P.
  - intros no q ty body r Hx. rewrite N. eapply (i_next _ I); eauto.
  - intros. eapply (i_uniq _ I); eauto.
  - rewrite H, routed_app, (routed_just _ _ J). exact (i_nodup _ I).
  - intros i no q ty body Hx. destruct (JJ _ Hx) as [Hy|Hy]; [|exact Hy]. destruct (i_called _ I _ _ _ _ _ Hy). auto.
  - intros no Hx. destruct (JJ _ Hx) as [Hy|Hy]; [|exact Hy]. destruct (i_acked _ I _ Hy) as (q & R). exists q. eapply ack_mono; eauto.
  - intros no Hx. destruct (JJ _ Hx) as [Hy|Hy]; [|exact Hy]. eapply rej_mono; [exact M|]. exact (i_rejected _ I _ Hy).
  - intros old new Hx. destruct (JJ _ Hx) as [Hy|Hy]; [|exact Hy].
    destruct (i_forwarded _ I _ _ Hy) as (q & body & r & A & B & C). exists q, body, r. auto.
  - intros i no ok Hx. destruct (JJ _ Hx) as [Hy|Hy]; [|exact Hy].
    destruct (i_returned _ I _ _ _ Hy) as (i' & q & ty & body & A). exists i', q, ty, body. auto.
  - intros b e Hb. exact (proj2 (S b Hb) e).
Qed.

Lemma publish_hist : forall s q ty body n s' o, publish s q ty body n = (s', o) ->
  exists e, hist s' = e :: hist s /\ subs s' = subs s /\ declared s' = declared s
    /\ match o with Some new => new = next s /\ exists r, e = Published new q ty body r | None => e = PublishFailed q ty body end.
Proof.
  intros s q ty body n s' o H. unfold publish in H.
  destruct (serializable ty); [destruct n; [| |destruct (existsb (String.eqb q) (declared s))]|];
    injection H as <- <-; eexists; cbn; repeat match goal with |- _ /\ _ => split end; try reflexivity; eauto.
Qed.

Lemma subs_mono : forall s h', inv s -> (forall x, In x (hist s) -> In x h') -> forall b, In b (subs s) -> sub_ok h' b /\ running_ok h' b.
Proof.
  intros s h' I M b Hb. split; [eapply sub_mono; [exact M|exact (i_sub _ I _ Hb)]|].
  intros x Hx. destruct (i_running _ I _ _ Hb Hx) as (i & q0 & t0 & b0 & R). exists i, q0, t0, b0. auto.
Qed.
Lemma wait_mono : forall s h', inv s -> (forall x, In x (hist s) -> In x h') -> forall q e, In (q, e) (waiting s) -> known h' q e.
Proof. intros s h' I M q e H. eapply known_mono; [exact M|exact (i_wait _ I _ _ H)]. Qed.

Lemma inv_failed : forall s q ty body, inv s -> inv (St (declared s) (waiting s) (subs s) (next s) (PublishFailed q ty body :: hist s)).
Proof.
  intros s q ty body I. apply (inv_change s _ [PublishFailed q ty body] I); cbn; auto.
  - constructor; [exact Logic.I|constructor].
  - intros b. apply (subs_mono s _ I). cbn; auto.
  - apply (wait_mono s _ I). cbn; auto.
  - rewrite app_nil_r. apply Permutation_refl.
Qed.

Lemma inv_published : forall s q ty body r w,
  inv s -> w = match r with Routed => waiting s ++ [(q, Entry (next s) ty body false)] | _ => waiting s end ->
  inv (St (declared s) w (subs s) (S (next s)) (Published (next s) q ty body r :: hist s)).
Proof.
  intros s q ty body r w I ->.
  assert (M : forall x, In x (hist s) -> In x (Published (next s) q ty body r :: hist s)) by (cbn; auto).
  assert (FR : forall no q' ty' body' r', In (Published no q' ty' body' r') (hist s) -> no <> next s)
    by (intros no q' t' b' r' H; pose proof (i_next _ I _ _ _ _ _ H); lia).
  assert (NR : ~ In (next s) (routed (hist s))).
  { intros H. unfold routed in H. apply in_flat_map in H. destruct H as (e & He & H). destruct e; cbn in H; try contradiction.
    destruct r0; cbn in H; try contradiction. destruct H as [H|[]]. exact (FR _ _ _ _ _ He H). }
  constructor; cbn [declared waiting subs next hist].
  - intros b Hb. exact (proj1 (subs_mono s _ I M b Hb)).
  - intros q0 e Hw.
    assert (C : In (q0, e) (waiting s) \/ (r = Routed /\ (q, Entry (next s) ty body false) = (q0, e))).
    { destruct r; auto. apply in_app_or in Hw. destruct Hw as [Hw|[Hw|[]]]; auto. }
    destruct C as [C|(-> & C)]; [exact (wait_mono s _ I M _ _ C)|]. injection C as <- <-.
    split; [left; reflexivity|cbn; discriminate].
  - pose proof (i_perm _ I) as P. unfold held in *. cbn [waiting subs]. destruct r; cbn; [|exact P|exact P].
    rewrite map_app. cbn. rewrite <- !app_assoc. cbn. apply Permutation_sym. apply Permutation_cons_app. apply Permutation_sym.
    rewrite <- app_assoc in P. exact P.
  - intros no q0 t0 b0 r0 [H|H]; [injection H as <-; lia|]. pose proof (i_next _ I _ _ _ _ _ H). lia.
  - intros no q1 t1 b1 r1 q2 t2 b2 r2 [H1|H1] [H2|H2].
    + congruence.
    + injection H1 as <- _ _ _ _. destruct (FR _ _ _ _ _ H2 eq_refl).
    + injection H2 as <- _ _ _ _. destruct (FR _ _ _ _ _ H1 eq_refl).
    + exact (i_uniq _ I _ _ _ _ _ _ _ _ _ H1 H2).
  - destruct r; cbn; [|exact (i_nodup _ I)|exact (i_nodup _ I)]. constructor; [exact NR|exact (i_nodup _ I)].
  - intros i no q0 t0 b0 [H|H]; [discriminate|]. destruct (i_called _ I _ _ _ _ _ H). auto.
  - intros no [H|H]; [discriminate|]. destruct (i_acked _ I _ H) as (q0 & R). exists q0. eapply ack_mono; eauto.
  - intros no [H|H]; [discriminate|]. eapply rej_mono; [exact M|]. exact (i_rejected _ I _ H).
  - intros old new [H|H]; [discriminate|]. destruct (i_forwarded _ I _ _ H) as (q0 & b0 & r0 & A & B & C). exists q0, b0, r0. auto.
  - intros i no ok [H|H]; [discriminate|]. destruct (i_returned _ I _ _ _ H) as (i' & q0 & t0 & b0 & A). exists i', q0, t0, b0. auto.
  - intros b e Hb. exact (proj2 (subs_mono s _ I M b Hb) e).
Qed.

Lemma inv_publish : forall s q ty body n, inv s -> inv (fst (publish s q ty body n)).
Proof.
  intros s q ty body n I. unfold publish.
  destruct (serializable ty); [destruct n; [| |destruct (existsb (String.eqb q) (declared s))]|]; cbn [fst].
  - apply inv_failed; exact I.
  - apply inv_published; [exact I|reflexivity].
  - apply inv_published; [exact I|reflexivity].
  - apply inv_published; [exact I|reflexivity].
  - apply inv_failed; exact I.
Qed.

Lemma held_upd : forall s i b b', nth_error (subs s) i = Some b -> out1 b' = out1 b -> map e_no (outs (upd (subs s) i b')) = map e_no (outs (subs s)).
Proof.
  intros s i b b' H E. destruct (split_nth _ _ _ H) as (l1 & l2 & -> & _ & U). rewrite U, !outs_app, !outs_cons, E. reflexivity.
Qed.

(** a change of phase of one subscription, with new events that are no publications and settle nothing *)
Lemma inv_phase : forall s s' add i b p, inv s -> nth_error (subs s) i = Some b ->
  hist s' = add ++ hist s -> next s' = next s -> waiting s' = waiting s -> subs s' = upd (subs s) i (with_phase b p) ->
  Forall (just (hist s')) add -> settled add = [] ->
  (phase_entry p = None \/ phase_entry p = phase_entry (s_ph b)) ->
  (forall e, p = Settling e VAck -> ack_reason (hist s') (s_q b) (e_no e)) ->
  (forall e, p = Settling e VReject -> rej_reason (hist s') (e_no e)) ->
  running_ok (hist s') (with_phase b p) ->
  inv s'.
Proof.
  intros s s' add i b p I Hi H N W S J ST PE A R RU.
  assert (M : forall x, In x (hist s) -> In x (hist s')) by (intros x Hx; rewrite H; apply in_or_app; auto).
  assert (Hb : In b (subs s)) by (eapply nth_error_In; eauto).
  apply (inv_change s s' add I H N J).
  - intros x Hx. rewrite S in Hx. apply in_upd in Hx. destruct Hx as [->|Hx]; [|exact (subs_mono s _ I M x Hx)].
    split; [|exact RU]. destruct (i_sub _ I _ Hb) as (B1 & B2 & B3 & B4 & B5 & B6).
    unfold sub_ok; cbn. repeat match goal with |- _ /\ _ => split end; auto.
    + intros e He. eapply known_mono; [exact M|]. exact (B1 e He).
    + intros e He. eapply known_mono; [exact M|]. apply B2. destruct PE as [PE|PE]; congruence.
    + intros L e He. apply (B4 L). destruct PE as [PE|PE]; congruence.
  - intros q e He. rewrite W in He. exact (wait_mono s _ I M q e He).
  - unfold held. rewrite ST, app_nil_r, W, S. rewrite (held_upd s i b _ Hi); [apply Permutation_refl|reflexivity].
Qed.

Lemma inv_take : forall s i b e n, inv s -> nth_error (subs s) i = Some b -> s_ph b = Received e -> inv (take s i b e n).
Proof.
  intros s i b e n I Hi Hp. unfold take.
  assert (Hb : In b (subs s)) by (eapply nth_error_In; eauto).
  assert (K : known (hist s) (s_q b) e). { destruct (i_sub _ I _ Hb) as (_ & B2 & _). apply B2. rewrite Hp. reflexivity. }
  destruct (e_red e && String.eqb (e_type e) task_type) eqn:RT.
  - apply andb_prop in RT. destruct RT as [R T]. apply String.eqb_eq in T. destruct K as [K1 K2]. specialize (K2 R). rewrite T in *.
    assert (G : forall s1 add, inv s1 -> subs s1 = subs s -> (forall x, In x (hist s) -> In x (hist s1)) ->
        Forall (just (add ++ hist s1)) add -> settled add = [] ->
        ((exists new, In (Forwarded (e_no e) new) (add ++ hist s1)) \/ In (ForwardFailed (e_no e)) (add ++ hist s1) \/ decodes task_type (e_body e) = false) ->
        inv (set_sub (St (declared s1) (waiting s1) (subs s1) (next s1) (add ++ hist s1)) i (with_phase b (Settling e VAck)))).
    { intros s1 add I1 S1 M1 J1 ST C. eapply (inv_phase s1 _ add i b (Settling e VAck) I1); cbn; auto.
      - rewrite S1. exact Hi.
      - rewrite Hp. auto.
      - intros e0 E0. injection E0 as <-. right. exists (e_body e).
        split; [apply in_or_app; right; apply M1; exact K1|].
        split; [apply in_or_app; right; apply M1; exact K2|exact C].
      - discriminate.
      - intros e0 E0. discriminate. }
    destruct (decodes task_type (e_body e)) eqn:D.
    + destruct (publish s redeliveries task_type (e_body e) n) as [s1 o] eqn:PU.
      assert (I1 : inv s1). { pose proof (inv_publish s redeliveries task_type (e_body e) n I) as X. rewrite PU in X. exact X. }
      destruct (publish_hist _ _ _ _ _ _ _ PU) as (x & H1 & S1 & D1 & O).
      assert (M1 : forall y, In y (hist s) -> In y (hist s1)) by (intros y Hy; rewrite H1; right; exact Hy).
      destruct o as [new|].
      * destruct O as (-> & r & ->).
        apply (G s1 [Forwarded (e_no e) (next s)] I1 S1 M1); [|reflexivity|left; exists (next s); left; reflexivity].
        constructor; [|constructor]. cbn. exists (s_q b), (e_body e), r.
        split; [right; apply M1; exact K1|]. split; [right; rewrite H1; left; reflexivity|]. exact (i_next _ I _ _ _ _ _ K1).
      * apply (G s1 [ForwardFailed (e_no e)] I1 S1 M1); [|reflexivity|right; left; left; reflexivity]. constructor; [exact Logic.I|constructor].
    + apply (G s [Undecodable i (e_no e)] I eq_refl); auto. constructor; [exact Logic.I|constructor].
  - destruct (decodes (e_type e) (e_body e)) eqn:D.
    + eapply (inv_phase s _ [Called i (e_no e) (s_q b) (e_type e) (e_body e)] i b (Running e) I Hi); cbn; auto.
      * constructor; [|constructor]. cbn. split; [right; exact (proj1 K)|exact D].
      * rewrite Hp. auto.
      * discriminate.
      * discriminate.
      * intros e0 E0. cbn in E0. injection E0 as <-. exists i, (s_q b), (e_type e), (e_body e). left. reflexivity.
    + eapply (inv_phase s _ [Undecodable i (e_no e)] i b Idle I Hi); cbn; auto.
      * constructor; [exact Logic.I|constructor].
      * discriminate.
      * discriminate.
      * intros e0 E0. discriminate.
Qed.

Lemma inv_settle : forall s i b e v, inv s -> nth_error (subs s) i = Some b -> s_ph b = Settling e v -> inv (settle s i b e v).
Proof.
  intros s i b e v I Hi Hp. unfold settle.
  assert (Hb : In b (subs s)) by (eapply nth_error_In; eauto).
  destruct (i_sub _ I _ Hb) as (B1 & B2 & B3 & B4 & B5 & B6).
  destruct (s_live b) eqn:L.
  - set (x := match v with VAck => Acked (e_no e) | VReject => Rejected (e_no e) end).
    assert (M : forall y, In y (hist s) -> In y (x :: hist s)) by (cbn; auto).
    apply (inv_change s _ [x] I); cbn [hist next log set_sub set_subs subs waiting app]; auto.
    + constructor; [|constructor]. subst x. destruct v; cbn.
      * exists (s_q b). eapply ack_mono; [exact M|]. apply B5. exact Hp.
      * eapply rej_mono; [exact M|]. apply B6. exact Hp.
    + intros y Hy. apply in_upd in Hy. destruct Hy as [->|Hy]; [|exact (subs_mono s _ I M y Hy)].
      split; [|intros e0 E0; discriminate]. unfold sub_ok; cbn. repeat match goal with |- _ /\ _ => split end; intros; try discriminate; auto.
    + exact (wait_mono s _ I M).
    + assert (SX : settled [x] = [e_no e]) by (subst x; destruct v; reflexivity). rewrite SX.
      unfold held; cbn [waiting subs]. destruct (split_nth _ _ _ Hi) as (l1 & l2 & E & _ & U). cbn. rewrite U, E, !outs_app, !outs_cons.
      assert (O : out1 b = [e]) by (unfold out1; rewrite (B4 eq_refl e) by (rewrite Hp; reflexivity); reflexivity). rewrite O.
      cbn [out1 s_out]. rewrite !map_app. cbn. rewrite <- !app_assoc. apply Permutation_app_head. apply Permutation_app_head.
      apply Permutation_sym. apply Permutation_cons_append.
  - eapply (inv_phase s _ [] i b Idle I Hi); cbn; auto; try discriminate.
Qed.

Lemma inv_lose : forall s i b, inv s -> nth_error (subs s) i = Some b -> inv (lose s i b).
Proof.
  intros s i b I Hi. unfold lose.
  assert (Hb : In b (subs s)) by (eapply nth_error_In; eauto).
  pose proof (i_sub _ I _ Hb) as SB.
  assert (G : forall h', (forall x, In x (hist s) -> In x h') -> sub_ok h' (Sub (s_q b) false None (s_ph b)) /\ running_ok h' (Sub (s_q b) false None (s_ph b))).
  { intros h' M. destruct (sub_mono _ _ _ M SB) as (B1 & B2 & B3 & B4 & B5 & B6). split.
    - unfold sub_ok; cbn. repeat match goal with |- _ /\ _ => split end; intros; try discriminate; auto.
    - exact (proj2 (subs_mono s _ I M b Hb)). }
  destruct (split_nth _ _ _ Hi) as (l1 & l2 & E & _ & U).
  destruct (s_out b) as [e|] eqn:O.
  - assert (M : forall x, In x (hist s) -> In x (Requeued (e_no e) :: hist s)) by (cbn; auto).
    apply (inv_change s _ [Requeued (e_no e)] I); cbn [hist next subs waiting app]; auto.
    + constructor; [exact Logic.I|constructor].
    + intros y Hy. apply in_upd in Hy. destruct Hy as [->|Hy]; [exact (G _ M)|exact (subs_mono s _ I M y Hy)].
    + intros q e0 [H|H]; [|exact (wait_mono s _ I M _ _ H)]. injection H as <- <-. cbn.
      destruct SB as (B1 & _). destruct (B1 e O) as [K _]. split; cbn; [right; exact K|intros _; left; reflexivity].
    + unfold held; cbn [waiting subs settled flat_map app]. rewrite app_nil_r, U, E, !outs_app, !outs_cons.
      unfold out1 at 2. rewrite O. cbn. rewrite !map_app. cbn.
      set (w := map (fun p => e_no (snd p)) (waiting s)). rewrite !(app_assoc w). apply Permutation_cons_app. apply Permutation_refl.
  - apply (inv_change s _ [] I); cbn [hist next subs waiting app set_sub set_subs]; auto.
    + intros y Hy. apply in_upd in Hy. destruct Hy as [->|Hy]; [apply G; auto|apply (subs_mono s _ I); auto].
    + apply (wait_mono s _ I); auto.
    + unfold held; cbn [waiting subs]. cbn. rewrite app_nil_r. rewrite (held_upd s i b _ Hi); [apply Permutation_refl|].
      unfold out1; cbn. rewrite O. reflexivity.
Qed.

Lemma filter_perm {A} (f : A -> bool) : forall l, Permutation (filter (fun x => negb (f x)) l ++ filter f l) l.
Proof.
  induction l as [|x l IH]; cbn; [apply Permutation_refl|]. destruct (f x); cbn; [|apply perm_skip; exact IH].
  apply Permutation_sym. apply Permutation_cons_app. apply Permutation_sym. exact IH.
Qed.
Lemma outs_delete (f : string -> bool) : forall l, Permutation
  (outs (map (fun b => if f (s_q b) then Sub (s_q b) false None (s_ph b) else b) l) ++ outs (filter (fun b => f (s_q b)) l)) (outs l).
Proof.
  induction l as [|b l IH]; cbn [map filter]; [apply Permutation_refl|]. rewrite outs_cons, (outs_cons b l).
  destruct (f (s_q b)).
  - rewrite outs_cons. cbn [out1 s_out app].
    eapply Permutation_trans; [rewrite app_assoc; apply Permutation_app_tail; apply Permutation_app_comm|].
    rewrite <- app_assoc. apply Permutation_app_head. exact IH.
  - rewrite <- app_assoc. apply Permutation_app_head. exact IH.
Qed.
Lemma settled_discards : forall l, settled (map (fun e => Discarded (e_no e)) l) = map e_no l.
Proof. induction l as [|e l IH]; cbn; [reflexivity|]. f_equal. exact IH. Qed.

Lemma inv_delete : forall s q, inv s -> inv (delete_queue s q).
Proof.
  intros s q I. unfold delete_queue. cbn zeta.
  set (add := map (fun e => Discarded (e_no e)) _).
  assert (M : forall x, In x (hist s) -> In x (add ++ hist s)) by (intros; apply in_or_app; auto).
  apply (inv_change s _ add I); cbn [hist next subs waiting]; auto.
  - apply Forall_forall. intros x Hx. subst add. apply in_map_iff in Hx. destruct Hx as (e & <- & _). exact Logic.I.
  - intros b Hb. apply in_map_iff in Hb. destruct Hb as (b0 & <- & Hb). destruct (subs_mono s _ I M _ Hb) as [B R].
    destruct (String.eqb (s_q b0) q); [|split; assumption]. split; [|exact R].
    destruct B as (B1 & B2 & B3 & B4 & B5 & B6). unfold sub_ok; cbn. repeat match goal with |- _ /\ _ => split end; intros; try discriminate; auto.
  - intros q0 e Hw. apply filter_In in Hw. exact (wait_mono s _ I M _ _ (proj1 Hw)).
  - subst add. rewrite settled_discards. unfold held; cbn [waiting subs]. rewrite map_app, map_map.
    pose proof (Permutation_map (fun p => e_no (snd p)) (filter_perm (fun p : string * entry => String.eqb (fst p) q) (waiting s))) as P1.
    pose proof (Permutation_map e_no (outs_delete (fun x => String.eqb x q) (subs s))) as P2.
    rewrite map_app in P1, P2.
    eapply Permutation_trans; [|apply Permutation_app; [exact P1|exact P2]].
    rewrite <- !app_assoc. apply Permutation_app_head. rewrite !app_assoc. apply Permutation_app_tail. apply Permutation_app_comm.
Qed.

Lemma inv_step : forall s a s', inv s -> step s a = Some s' -> inv s'.
Proof.
  intros s a s' I H. destruct a as [q|q|q ty body n|i k|i n|i ok|i|i|q|k]; cbn in H.
  - injection H as <-. destruct (existsb (String.eqb q) (declared s)); [exact I|].
    apply (inv_change s _ [] I); cbn; auto; [apply (subs_mono s _ I); auto|apply (wait_mono s _ I); auto|rewrite app_nil_r; apply Permutation_refl].
  - destruct (existsb (String.eqb q) (declared s)); [|discriminate]. injection H as <-.
    apply (inv_change s _ [] I); cbn; auto.
    + intros b Hb. apply in_app_or in Hb. destruct Hb as [Hb|[<-|[]]]; [apply (subs_mono s _ I); auto|].
      split; [|intros e E; discriminate]. unfold sub_ok; cbn. repeat match goal with |- _ /\ _ => split end; intros; try discriminate; auto.
    + apply (wait_mono s _ I); auto.
    + unfold held; cbn. rewrite outs_app. cbn. rewrite !app_nil_r. apply Permutation_refl.
  - injection H as <-. apply inv_publish. exact I.
  - destruct (nth_error (subs s) i) as [[q l o p]|] eqn:Hi; [|discriminate].
    destruct l; [|discriminate]. destruct o; [discriminate|]. destruct p; try discriminate.
    destruct (nth_error (waiting s) k) as [[q' e]|] eqn:Hk; [|discriminate].
    destruct (String.eqb q q') eqn:Q; [|discriminate]. apply String.eqb_eq in Q. subst q'. injection H as <-.
    assert (K : known (hist s) q e) by (apply (i_wait _ I); eapply nth_error_In; eauto).
    apply (inv_change s _ [] I); cbn [hist next subs waiting app]; auto.
    + intros b Hb. apply in_upd in Hb. destruct Hb as [->|Hb]; [|apply (subs_mono s _ I); auto].
      split; [|intros e0 E; discriminate]. unfold sub_ok; cbn.
      repeat match goal with |- _ /\ _ => split end; intros; try discriminate; try (match goal with H : Some _ = Some _ |- _ => injection H as <- end); auto.
    + intros q0 e0 H0. apply in_del in H0. apply (wait_mono s _ I); auto.
    + unfold held; cbn [waiting subs settled flat_map]. rewrite app_nil_r.
      destruct (split_nth _ _ _ Hi) as (l1 & l2 & E & _ & U). rewrite U, E, !outs_app, !outs_cons. cbn [out1 s_out app].
      pose proof (Permutation_map (fun p => e_no (snd p)) (del_perm _ _ _ Hk)) as P. cbn in P.
      apply Permutation_sym. eapply Permutation_trans; [apply Permutation_app_tail; exact P|]. rewrite !map_app. cbn.
      rewrite !app_assoc. apply Permutation_cons_app. apply Permutation_refl.
  - destruct (nth_error (subs s) i) as [b|] eqn:Hi; [|discriminate]. destruct (s_ph b) as [|e|e|e v] eqn:Hp; try discriminate.
    injection H as <-. apply inv_take; assumption.
  - destruct (nth_error (subs s) i) as [b|] eqn:Hi; [|discriminate]. destruct (s_ph b) as [|e|e|e v] eqn:Hp; try discriminate.
    injection H as <-.
    eapply (inv_phase s _ [Returned i (e_no e) ok] i b _ I Hi); cbn; auto.
    + constructor; [|constructor]. cbn. destruct (i_running _ I b e (nth_error_In _ _ Hi) Hp) as (i' & q & ty & body & C).
      exists i', q, ty, body. right. exact C.
    + rewrite Hp. auto.
    + intros e0 E0. destruct ok; [|discriminate]. injection E0 as <-. left. exists i. left. reflexivity.
    + intros e0 E0. destruct ok; [discriminate|]. injection E0 as <-. exists i. left. reflexivity.
    + intros e0 E0. discriminate.
  - destruct (nth_error (subs s) i) as [b|] eqn:Hi; [|discriminate]. destruct (s_ph b) as [|e|e|e v] eqn:Hp; try discriminate.
    injection H as <-. apply inv_settle; assumption.
  - destruct (nth_error (subs s) i) as [b|] eqn:Hi; [|discriminate]. destruct (s_live b); [|discriminate]. injection H as <-. apply inv_lose; assumption.
  - injection H as <-. apply inv_delete. exact I.
  - destruct (nth_error (waiting s) k) as [[q e]|] eqn:Hk; [|discriminate]. injection H as <-.
    assert (M : forall x, In x (hist s) -> In x (Discarded (e_no e) :: hist s)) by (cbn; auto).
    apply (inv_change s _ [Discarded (e_no e)] I); cbn [hist next subs waiting app log]; auto.
    + constructor; [exact Logic.I|constructor].
    + apply (subs_mono s _ I M).
    + intros q0 e0 H0. apply in_del in H0. exact (wait_mono s _ I M _ _ H0).
    + unfold held; cbn [waiting subs settled flat_map log].
      pose proof (Permutation_map (fun p => e_no (snd p)) (del_perm _ _ _ Hk)) as P. cbn in P.
      apply Permutation_sym. eapply Permutation_trans; [apply Permutation_app_tail; exact P|]. cbn. apply Permutation_cons_append.
Qed.
Lemma inv_run : forall l s s', inv s -> run s l = Some s' -> inv s'.
Proof.
  induction l as [|a l IH]; intros s s' I H; cbn in H; [injection H as <-; exact I|].
  destruct (step s a) as [s1|] eqn:E; [|discriminate]. eapply IH; [exact (inv_step _ _ _ I E)|exact H].
Qed.
Lemma inv_reachable : forall s, reachable s -> inv s.
Proof. intros s (l & H). exact (inv_run _ _ _ inv_empty H). Qed.

(* ------------------------------------------------------------------ *)
(** * At most one call for a task message *)
Definition fresh (no : nat) (e : entry) : bool := Nat.eqb (e_no e) no && String.eqb (e_type e) task_type && negb (e_red e).
Definition b2n (b : bool) : nat := if b then 1 else 0.
Definition rec1 (no : nat) (b : sub) : nat := match s_ph b with Received e => b2n (fresh no e) | _ => 0 end.
Fixpoint sum {A} (f : A -> nat) (l : list A) : nat := match l with [] => 0 | a :: l => f a + sum f l end.
Definition tcall (no : nat) (e : ev) : nat := match e with Called _ m _ ty _ => b2n (Nat.eqb m no && String.eqb ty task_type) | _ => 0 end.
Definition wait1 (no : nat) (p : string * entry) : nat := b2n (fresh no (snd p)).
Definition pot (s : st) (no : nat) : nat := sum (wait1 no) (waiting s) + sum (rec1 no) (subs s) + sum (tcall no) (hist s).
Lemma sum_app {A} (f : A -> nat) : forall a b, sum f (a ++ b) = sum f a + sum f b.
Proof. induction a as [|x a IH]; intros b; cbn; [reflexivity|]. rewrite IH. lia. Qed.
Lemma sum_upd {A} (f : A -> nat) : forall l i a b, nth_error l i = Some a -> sum f (upd l i b) + f a = sum f l + f b.
Proof. intros l i a b H. destruct (split_nth _ _ _ H) as (l1 & l2 & -> & _ & U). rewrite U, !sum_app. cbn. lia. Qed.
Lemma sum_del {A} (f : A -> nat) : forall l k a, nth_error l k = Some a -> sum f (del l k) + f a = sum f l.
Proof. induction l as [|x l IH]; intros [|k] a H; cbn in *; try discriminate; [injection H as ->; lia|]. rewrite <- (IH _ _ H). lia. Qed.
Lemma sum_zero {A} (f : A -> nat) : forall l, (forall a, In a l -> f a = 0) -> sum f l = 0.
Proof. induction l as [|x l IH]; intros H; cbn; [reflexivity|]. rewrite (H x) by (left; reflexivity). apply IH. intros. apply H. right. assumption. Qed.
Lemma sum_filter {A} (f : A -> nat) (g : A -> bool) : forall l, sum f (filter g l) <= sum f l.
Proof. induction l as [|x l IH]; cbn; [lia|]. destruct (g x); cbn; lia. Qed.
Lemma sum_map {A B} (f : B -> nat) (g : A -> B) : forall l, sum f (map g l) = sum (fun a => f (g a)) l.
Proof. induction l as [|x l IH]; cbn; [reflexivity|]. now rewrite IH. Qed.
Lemma sum_ext {A} (f g : A -> nat) : forall l, (forall a, f a = g a) -> sum f l = sum g l.
Proof. intros l H. induction l as [|x l IH]; cbn; [reflexivity|]. now rewrite H, IH. Qed.

Lemma pot_next : forall s, inv s -> pot s (next s) = 0.
Proof.
  intros s I. unfold pot.
  assert (K : forall q e, known (hist s) q e -> fresh (next s) e = false).
  { intros q e [K _]. pose proof (i_next _ I _ _ _ _ _ K). unfold fresh. rewrite (proj2 (Nat.eqb_neq _ _)); [reflexivity|lia]. }
  rewrite !sum_zero; [reflexivity| | |].
  - intros e He. destruct e; cbn; auto. destruct (i_called _ I _ _ _ _ _ He) as [P _]. pose proof (i_next _ I _ _ _ _ _ P).
    rewrite (proj2 (Nat.eqb_neq _ _)); [reflexivity|lia].
  - intros b Hb. unfold rec1. destruct (s_ph b) as [|e|e|e v] eqn:P; auto. rewrite (K (s_q b)); [reflexivity|].
    destruct (i_sub _ I _ Hb) as (_ & B2 & _). apply B2. rewrite P. reflexivity.
  - intros [q e] He. unfold wait1; cbn. rewrite (K q); [reflexivity|]. exact (i_wait _ I _ _ He).
Qed.

Lemma pot_publish : forall s q ty body n no, inv s -> pot s no <= 1 -> pot (fst (publish s q ty body n)) no <= 1.
Proof.
  intros s q ty body n no I P. unfold publish.
  destruct (serializable ty); [destruct n; [| |destruct (existsb (String.eqb q) (declared s))]|]; cbn [fst]; try (unfold pot in *; cbn in *; lia).
  destruct (Nat.eq_dec no (next s)) as [->|NE].
  - pose proof (pot_next s I). unfold pot in *. cbn [waiting subs hist]. rewrite sum_app. cbn. unfold wait1 at 2. cbn.
    unfold b2n. destruct (fresh (next s) _); lia.
  - unfold pot in *. cbn [waiting subs hist]. rewrite sum_app. cbn. unfold wait1 at 2, fresh. cbn [snd e_no].
    rewrite (proj2 (Nat.eqb_neq (next s) no)) by lia. cbn. lia.
Qed.

Lemma pot_step : forall s a s', inv s -> (forall no, pot s no <= 1) -> step s a = Some s' -> forall no, pot s' no <= 1.
Proof.
  intros s a s' I P H no. specialize (P no). destruct a as [q|q|q ty body n|i k|i n|i ok|i|i|q|k]; cbn in H.
  - injection H as <-. destruct (existsb (String.eqb q) (declared s)); exact P.
  - destruct (existsb (String.eqb q) (declared s)); [|discriminate]. injection H as <-.
    unfold pot in *. cbn. rewrite sum_app. cbn. lia.
  - injection H as <-. apply pot_publish; assumption.
  - destruct (nth_error (subs s) i) as [[q l o p]|] eqn:Hi; [|discriminate].
    destruct l; [|discriminate]. destruct o; [discriminate|]. destruct p; try discriminate.
    destruct (nth_error (waiting s) k) as [[q' e]|] eqn:Hk; [|discriminate].
    destruct (String.eqb q q') eqn:Q; [|discriminate]. injection H as <-.
    unfold pot in *. cbn [waiting subs hist].
    pose proof (sum_upd (rec1 no) _ _ _ (Sub q true (Some e) (Received e)) Hi) as U. cbn in U.
    pose proof (sum_del (wait1 no) _ _ _ Hk) as D. unfold wait1 at 2 in D. cbn in D. lia.
  - destruct (nth_error (subs s) i) as [b|] eqn:Hi; [|discriminate]. destruct (s_ph b) as [|e|e|e v] eqn:Hp; try discriminate.
    injection H as <-. unfold take.
    destruct (e_red e && String.eqb (e_type e) task_type) eqn:RT.
    + assert (G : forall s1 p, subs s1 = subs s -> pot s1 no <= 1 -> rec1 no (with_phase b p) = 0 -> pot (set_sub s1 i (with_phase b p)) no <= 1).
      { intros s1 p S1 P1 R. unfold pot in *. cbn. rewrite S1 in *.
        pose proof (sum_upd (rec1 no) _ _ _ (with_phase b p) Hi) as U. lia. }
      cbn zeta. apply G; [| |reflexivity].
      * destruct (decodes (e_type e) (e_body e)); [|reflexivity].
        destruct (publish s redeliveries (e_type e) (e_body e) n) as [s1 o] eqn:PU.
        destruct (publish_hist _ _ _ _ _ _ _ PU) as (x & _ & S1 & _). destruct o; exact S1.
      * destruct (decodes (e_type e) (e_body e)); [|unfold pot in *; cbn; lia].
        pose proof (pot_publish s redeliveries (e_type e) (e_body e) n no I P) as X.
        destruct (publish s redeliveries (e_type e) (e_body e) n) as [s1 o] eqn:PU. cbn [fst] in X. destruct o; exact X.
    + destruct (decodes (e_type e) (e_body e)) eqn:D.
      * unfold pot in *. cbn. pose proof (sum_upd (rec1 no) _ _ _ (with_phase b (Running e)) Hi) as U.
        unfold rec1 at 2 4 in U. rewrite Hp in U. cbn in U.
        assert (F : b2n (Nat.eqb (e_no e) no && String.eqb (e_type e) task_type) <= b2n (fresh no e)).
        { unfold fresh. destruct (Nat.eqb (e_no e) no), (String.eqb (e_type e) task_type), (e_red e); cbn in *; try discriminate; lia. }
        lia.
      * unfold pot in *. cbn. pose proof (sum_upd (rec1 no) _ _ _ (with_phase b Idle) Hi) as U. cbn in U. lia.
  - destruct (nth_error (subs s) i) as [b|] eqn:Hi; [|discriminate]. destruct (s_ph b) as [|e|e|e v] eqn:Hp; try discriminate.
    injection H as <-. unfold pot in *. cbn. pose proof (sum_upd (rec1 no) _ _ _ (with_phase b (Settling e (if ok then VAck else VReject))) Hi) as U. cbn in U. lia.
  - destruct (nth_error (subs s) i) as [b|] eqn:Hi; [|discriminate]. destruct (s_ph b) as [|e|e|e v] eqn:Hp; try discriminate.
    injection H as <-. unfold settle. destruct (s_live b); unfold pot in *; cbn.
    + pose proof (sum_upd (rec1 no) _ _ _ (Sub (s_q b) true None Idle) Hi) as U. cbn in U. destruct v; cbn; lia.
    + pose proof (sum_upd (rec1 no) _ _ _ (with_phase b Idle) Hi) as U. cbn in U. lia.
  - destruct (nth_error (subs s) i) as [b|] eqn:Hi; [|discriminate]. destruct (s_live b); [|discriminate]. injection H as <-.
    pose proof (sum_upd (rec1 no) _ _ _ (Sub (s_q b) false None (s_ph b)) Hi) as U.
    change (rec1 no (Sub (s_q b) false None (s_ph b))) with (rec1 no b) in U.
    unfold lose. destruct (s_out b) as [e|]; unfold pot in *; cbn.
    + unfold wait1 at 1, fresh. cbn. rewrite andb_false_r. cbn. lia.
    + lia.
  - injection H as <-. unfold pot in *. unfold delete_queue. cbn [waiting subs hist].
    rewrite sum_app, (sum_zero (tcall no) (map _ _)), sum_map.
    + rewrite (sum_ext (fun a => rec1 no (if String.eqb (s_q a) q then _ else a)) (rec1 no)).
      * pose proof (sum_filter (wait1 no) (fun p => negb (String.eqb (fst p) q)) (waiting s)). lia.
      * intros b. destruct (String.eqb (s_q b) q); reflexivity.
    + intros x Hx. apply in_map_iff in Hx. destruct Hx as (e & <- & _). reflexivity.
  - destruct (nth_error (waiting s) k) as [[q e]|] eqn:Hk; [|discriminate]. injection H as <-.
    unfold pot in *. cbn. pose proof (sum_del (wait1 no) _ _ _ Hk). lia.
Qed.
Lemma pot_run : forall l s s', inv s -> (forall no, pot s no <= 1) -> run s l = Some s' -> forall no, pot s' no <= 1.
Proof.
  induction l as [|a l IH]; intros s s' I P H; cbn in H; [injection H as <-; exact P|].
  destruct (step s a) as [s1|] eqn:E; [|discriminate]. eapply (IH s1); [exact (inv_step _ _ _ I E)|exact (pot_step _ _ _ I P E)|exact H].
Qed.

(* ------------------------------------------------------------------ *)
(** * C67 *)
(** every message that reached a queue is in exactly one place: waiting in a queue, unacknowledged with one consumer, or
    let go by the server (acknowledged, rejected, or discarded with its queue) - never twice, never nowhere *)
Theorem C67_every_message_is_somewhere : forall s, reachable s ->
  Permutation (held s ++ settled (hist s)) (routed (hist s)) /\ NoDup (routed (hist s)).
Proof. intros s R. apply inv_reachable in R. split; [exact (i_perm _ R)|exact (i_nodup _ R)]. Qed.

(** whatever happens - connections lost in the middle of a handler, late acknowledgements, restarts, repeated
    subscriptions - a handler is called at most once for each publication of a task *)
Theorem C67_task_handled_at_most_once : forall s no q body r, reachable s ->
  In (Published no q task_type body r) (hist s) -> calls no (hist s) <= 1.
Proof.
  intros s no q body r R H. pose proof (inv_reachable s R) as I. destruct R as (l & R).
  pose proof (pot_run l empty s inv_empty (fun no => le_S _ _ (le_n 0)) R no) as P.
  assert (E : calls no (hist s) = sum (tcall no) (hist s)).
  { unfold calls. assert (G : forall h, (forall e, In e h -> In e (hist s)) -> length (filter (is_call no) h) = sum (tcall no) h).
    { induction h as [|e h IH]; intros M; [reflexivity|]. cbn [filter sum].
      assert (IH' : length (filter (is_call no) h) = sum (tcall no) h) by (apply IH; intros; apply M; right; assumption).
      destruct e; cbn; auto. destruct (Nat.eqb no0 no) eqn:N; cbn; [|exact IH']. apply Nat.eqb_eq in N. subst no0.
      destruct (i_called _ I _ _ _ _ _ (M _ (or_introl eq_refl))) as [C _].
      pose proof (i_uniq _ I _ _ _ _ _ _ _ _ _ C H) as U. injection U as -> -> -> _. rewrite String.eqb_refl. cbn. now f_equal. }
    apply G. auto. }
  unfold pot in P. lia.
Qed.

(** a handler is only ever given what was published to its queue, as it was published *)
Theorem C67_handlers_get_what_was_published : forall s i no q ty body, reachable s -> In (Called i no q ty body) (hist s) ->
  In (Published no q ty body Routed) (hist s) /\ decodes ty body = true.
Proof. intros s i no q ty body R H. exact (i_called _ (inv_reachable s R) _ _ _ _ _ H). Qed.

(** nothing is let go silently: an acknowledged message was handled without error by a handler that was given it, or is a
    task that had been given back by a lost consumer and was then sent, under a new number but with the same content, to
    the queue of redeliveries - or that publication failed, or the task is unreadable; a rejected message is one whose handler failed *)
Theorem C67_acknowledged_means_dealt_with : forall s no, reachable s -> In (Acked no) (hist s) ->
  (exists i, In (Returned i no true) (hist s) /\ exists i' q ty body, In (Called i' no q ty body) (hist s))
  \/ exists q body, In (Published no q task_type body Routed) (hist s) /\ In (Requeued no) (hist s)
       /\ ((exists new r, In (Published new redeliveries task_type body r) (hist s) /\ In (Forwarded no new) (hist s))
           \/ In (ForwardFailed no) (hist s) \/ decodes task_type body = false).
Proof.
  intros s no R H. pose proof (inv_reachable s R) as I. destruct (i_acked _ I _ H) as (q & [(i & A)|(body & A & B & C)]).
  - left. exists i. split; [exact A|]. exact (i_returned _ I _ _ _ A).
  - right. exists q, body. split; [exact A|]. split; [exact B|]. destruct C as [(new & C)|[C|C]]; [left|right; left; exact C|right; right; exact C].
    destruct (i_forwarded _ I _ _ C) as (q' & body' & r & F1 & F2 & _).
    pose proof (i_uniq _ I _ _ _ _ _ _ _ _ _ A F1) as U. injection U as _ <-. exists new, r. auto.
Qed.
Theorem C67_rejected_means_failed : forall s no, reachable s -> In (Rejected no) (hist s) -> exists i, In (Returned i no false) (hist s).
Proof. intros s no R H. exact (i_rejected _ (inv_reachable s R) _ H). Qed.

(** hence: when no forwarding failed and no queue or message was discarded, a readable message that reached a queue is
    still held by the server, or its handler has returned, or it was forwarded *)
Theorem C67_no_silent_loss : forall s no q ty body, reachable s -> In (Published no q ty body Routed) (hist s) -> decodes ty body = true ->
  ~ In (ForwardFailed no) (hist s) -> ~ In (Discarded no) (hist s) ->
  In no (held s) \/ (exists i ok, In (Returned i no ok) (hist s))
  \/ exists new r, In (Published new redeliveries ty body r) (hist s) /\ In (Forwarded no new) (hist s).
Proof.
  intros s no q ty body R H D NF ND. pose proof (inv_reachable s R) as I.
  assert (P : In no (held s ++ settled (hist s))).
  { eapply Permutation_in; [apply Permutation_sym; exact (i_perm _ I)|]. unfold routed. apply in_flat_map. eexists; split; [exact H|]. left; reflexivity. }
  apply in_app_or in P. destruct P as [P|P]; [left; exact P|right].
  unfold settled in P. apply in_flat_map in P. destruct P as (e & He & P). destruct e; cbn in P; try contradiction; destruct P as [<-|[]].
  - destruct (C67_acknowledged_means_dealt_with s _ R He) as [(i & A & _)|(q' & body' & A & _ & C)]; [left; exists i, true; exact A|].
    pose proof (i_uniq _ I _ _ _ _ _ _ _ _ _ H A) as U. injection U as _ -> ->.
    destruct C as [C|[C|C]]; [right; exact C|contradiction|congruence].
  - destruct (C67_rejected_means_failed s _ R He) as (i & A). left. exists i, false. exact A.
  - contradiction.
Qed.

(** a consumer that is listening can always deal with any readable message waiting in its queue *)
Theorem C67_progress : forall s i q k e, reachable s -> nth_error (subs s) i = Some (Sub q true None Idle) -> nth_error (waiting s) k = Some (q, e) ->
  decodes (e_type e) (e_body e) = true ->
  exists l s', run s l = Some s' /\ In (Acked (e_no e)) (hist s') /\ nth_error (subs s') i = Some (Sub q true None Idle)
    /\ (e_red e = false \/ e_type e <> task_type -> In (Called i (e_no e) q (e_type e) (e_body e)) (hist s'))
    /\ (e_red e = true /\ e_type e = task_type -> exists new, In (Forwarded (e_no e) new) (hist s')).
Proof.
  intros s i q k e _ Hi Hk D. destruct (e_red e && String.eqb (e_type e) task_type) eqn:RT.
  - pose proof RT as RT'. apply andb_prop in RT'. destruct RT' as [R T]. apply String.eqb_eq in T.
    exists [Deliver i k; Take i NOk; Settle i]. cbn [run step]. rewrite Hi, Hk, String.eqb_refl.
    cbn [subs]. rewrite (nth_upd_same _ _ _ _ Hi). cbn [s_ph]. unfold take. rewrite RT, D.
    destruct (publish _ redeliveries (e_type e) (e_body e) NOk) as [s1 o] eqn:PU.
    destruct (publish_hist _ _ _ _ _ _ _ PU) as (x & H1 & S1 & D1 & O). cbn [subs hist] in S1, H1.
    assert (exists new, o = Some new) as (new & ->).
    { unfold publish in PU. rewrite T in PU. cbn in PU. destruct (existsb _ _) in PU; injection PU as _ <-; eauto. }
    cbn [set_sub set_subs subs log]. rewrite S1.
    erewrite nth_upd_same by (apply (nth_upd_same _ _ _ _ Hi)). cbn [s_ph with_phase]. unfold settle. cbn [s_live s_q s_out with_phase].
    eexists. split; [reflexivity|]. cbn [hist log set_sub set_subs subs]. rewrite ?S1.
    split; [left; reflexivity|]. split.
    { erewrite nth_upd_same; [reflexivity|]. eapply nth_upd_same. eapply nth_upd_same. exact Hi. }
    split; [intros [X|X]; congruence|]. intros _. exists new. right. left. reflexivity.
  - exists [Deliver i k; Take i NOk; Finish i true; Settle i]. cbn [run step]. rewrite Hi, Hk, String.eqb_refl.
    cbn [subs]. rewrite (nth_upd_same _ _ _ _ Hi). cbn [s_ph]. unfold take. rewrite RT, D. cbn [set_sub set_subs subs log with_phase s_q s_live s_out].
    erewrite nth_upd_same by (apply (nth_upd_same _ _ _ _ Hi)). cbn [s_ph set_sub set_subs subs log with_phase s_q s_live s_out].
    erewrite nth_upd_same by (eapply nth_upd_same; apply (nth_upd_same _ _ _ _ Hi)). cbn [s_ph with_phase]. unfold settle. cbn [s_live s_q s_out with_phase].
    eexists. split; [reflexivity|]. cbn [hist log set_sub set_subs subs]. rewrite ?S1.
    split; [left; reflexivity|]. split.
    { erewrite nth_upd_same; [reflexivity|]. eapply nth_upd_same. eapply nth_upd_same. eapply nth_upd_same. exact Hi. }
    split; [intros _; right; right; left; reflexivity|]. intros (A & B). rewrite A, B in RT. discriminate.
Qed.

(** a message that cannot be read is neither acknowledged nor rejected, and from then on this consumer is given nothing
    more until its channel closes or its queue is deleted *)
Definition called_by (i : nat) (h : list ev) : list ev := filter (fun e => match e with Called j _ _ _ _ => Nat.eqb j i | _ => false end) h.
Definition disturbs (i : nat) (q : string) (a : act) : bool :=
  match a with Lose j => Nat.eqb j i | Delete q' => String.eqb q q' | _ => false end.

Lemma blocked_step : forall s a s' i q e, step s a = Some s' -> nth_error (subs s) i = Some (Sub q true (Some e) Idle) -> disturbs i q a = false ->
  nth_error (subs s') i = Some (Sub q true (Some e) Idle) /\ called_by i (hist s') = called_by i (hist s).
Proof.
  intros s a s' i q e H Hi D.
  assert (O : forall j b b', nth_error (subs s) j = Some b -> b <> Sub q true (Some e) Idle -> nth_error (upd (subs s) j b') i = Some (Sub q true (Some e) Idle)).
  { intros j b b' Hj N. rewrite nth_upd_other; [exact Hi|]. intros ->. rewrite Hi in Hj. injection Hj as <-. apply N. reflexivity. }
  destruct a as [q0|q0|q0 ty body n|j k|j n|j ok|j|j|q0|k]; cbn in H.
  - injection H as <-. destruct (existsb (String.eqb q0) (declared s)); auto.
  - destruct (existsb (String.eqb q0) (declared s)); [|discriminate]. injection H as <-. cbn. split; [|reflexivity].
    rewrite nth_error_app1; [exact Hi|]. apply nth_error_Some. congruence.
  - injection H as <-. destruct (publish s q0 ty body n) as [s1 o] eqn:PU. destruct (publish_hist _ _ _ _ _ _ _ PU) as (x & H1 & S1 & _ & X).
    cbn [fst]. rewrite S1, H1. split; [exact Hi|]. destruct o; [destruct X as (_ & r & ->)|subst x]; reflexivity.
  - destruct (nth_error (subs s) j) as [[q1 l o p]|] eqn:Hj; [|discriminate].
    destruct l; [|discriminate]. destruct o; [discriminate|]. destruct p; try discriminate.
    destruct (nth_error (waiting s) k) as [[q' e']|] eqn:Hk; [|discriminate].
    destruct (String.eqb q1 q') eqn:Q; [|discriminate]. injection H as <-. cbn. split; [|reflexivity]. eapply O; [exact Hj|discriminate].
  - destruct (nth_error (subs s) j) as [b|] eqn:Hj; [|discriminate]. destruct (s_ph b) as [|x|x|x v] eqn:Hp; try discriminate.
    assert (N : b <> Sub q true (Some e) Idle) by (intros ->; discriminate).
    injection H as <-. unfold take. destruct (e_red x && String.eqb (e_type x) task_type).
    + cbn zeta. destruct (decodes (e_type x) (e_body x)).
      * destruct (publish s redeliveries (e_type x) (e_body x) n) as [s1 o] eqn:PU. destruct (publish_hist _ _ _ _ _ _ _ PU) as (y & H1 & S1 & _ & X).
        destruct o; cbn; rewrite S1, H1; (split; [eapply O; eassumption|]); [destruct X as (_ & r & ->)|subst y]; reflexivity.
      * cbn. split; [eapply O; eassumption|reflexivity].
    + assert (NJ : j <> i) by (intros ->; rewrite Hi in Hj; injection Hj as <-; apply N; reflexivity).
      destruct (decodes (e_type x) (e_body x)); cbn; (split; [eapply O; eassumption|]); [|reflexivity].
      rewrite (proj2 (Nat.eqb_neq j i) NJ). reflexivity.
  - destruct (nth_error (subs s) j) as [b|] eqn:Hj; [|discriminate]. destruct (s_ph b) as [|x|x|x v] eqn:Hp; try discriminate.
    injection H as <-. cbn. split; [eapply O; [eassumption|intros ->; discriminate]|reflexivity].
  - destruct (nth_error (subs s) j) as [b|] eqn:Hj; [|discriminate]. destruct (s_ph b) as [|x|x|x v] eqn:Hp; try discriminate.
    injection H as <-. unfold settle. destruct (s_live b); cbn; (split; [eapply O; [eassumption|intros ->; discriminate]|]); destruct v; reflexivity.
  - destruct (nth_error (subs s) j) as [b|] eqn:Hj; [|discriminate]. destruct (s_live b); [|discriminate]. injection H as <-.
    cbn in D. apply Nat.eqb_neq in D. unfold lose. destruct (s_out b); cbn; (split; [rewrite nth_upd_other; [exact Hi|exact D]|reflexivity]).
  - injection H as <-. cbn in D. unfold delete_queue. cbn [subs hist]. split.
    + erewrite map_nth_error; [|exact Hi]. cbn. rewrite D. reflexivity.
    + unfold called_by. rewrite filter_app. match goal with |- (filter ?f (map ?g ?l) ++ _ = _) => assert (Z : forall l', filter f (map g l') = []) by (induction l' as [|y l' IH]; [reflexivity|exact IH]); rewrite Z end. reflexivity.
  - destruct (nth_error (waiting s) k) as [[q0 e0]|] eqn:Hk; [|discriminate]. injection H as <-. cbn. auto.
Qed.
Theorem C67_unreadable_message_blocks_its_consumer : forall s i q e n s1 l s2, reachable s ->
  nth_error (subs s) i = Some (Sub q true (Some e) (Received e)) -> decodes (e_type e) (e_body e) = false -> e_red e = false ->
  step s (Take i n) = Some s1 -> run s1 l = Some s2 -> existsb (disturbs i q) l = false ->
  called_by i (hist s2) = called_by i (hist s) /\ ~ In (Acked (e_no e)) (hist s2) /\ ~ In (Rejected (e_no e)) (hist s2).
Proof.
  intros s i q e n s1 l s2 R Hi D Rd H1 H2 X. cbn [step] in H1. rewrite Hi in H1. cbn [s_ph] in H1.
  unfold take in H1. rewrite Rd, D in H1. cbn in H1. injection H1 as <-.
  set (s1 := log _ _) in *.
  assert (B : nth_error (subs s1) i = Some (Sub q true (Some e) Idle)) by (cbn; apply (nth_upd_same _ _ _ _ Hi)).
  assert (G : forall l s1 s2, run s1 l = Some s2 -> existsb (disturbs i q) l = false -> nth_error (subs s1) i = Some (Sub q true (Some e) Idle) ->
     nth_error (subs s2) i = Some (Sub q true (Some e) Idle) /\ called_by i (hist s2) = called_by i (hist s1)).
  { clear. induction l as [|a l IH]; intros s1 s2 H X B; cbn in H; [injection H as <-; auto|].
    destruct (step s1 a) as [s'|] eqn:E; [|discriminate]. cbn in X. apply orb_false_elim in X. destruct X as [X1 X2].
    destruct (blocked_step _ _ _ _ _ _ E B X1) as [B' C']. destruct (IH _ _ H X2 B') as [B2 C2]. split; [exact B2|congruence]. }
  destruct (G _ _ _ H2 X B) as [B2 C2]. split; [exact C2|].
  assert (R2 : reachable s2).
  { destruct R as (l0 & R). exists (l0 ++ Take i n :: l). clear - R H2 Hi D Rd.
    assert (A : forall a s s' b, run s a = Some s' -> run s (a ++ b) = run s' b).
    { induction a as [|x a IH]; intros s0 s' b H; cbn in *; [injection H as <-; reflexivity|]. destruct (step s0 x); [eauto|discriminate]. }
    rewrite (A _ _ _ _ R). cbn [run step]. rewrite Hi. cbn [s_ph]. unfold take. rewrite Rd, D. cbn [andb]. exact H2. }
  pose proof (inv_reachable s2 R2) as I2. pose proof (i_perm _ I2) as P. pose proof (i_nodup _ I2) as N.
  assert (ND : NoDup (held s2 ++ settled (hist s2))) by (eapply Permutation_NoDup; [apply Permutation_sym; exact P|exact N]).
  assert (HE : In (e_no e) (held s2)).
  { unfold held. apply in_or_app. right. apply in_map. unfold outs. apply in_flat_map. eexists. split; [eapply nth_error_In; exact B2|left; reflexivity]. }
  assert (NS : ~ In (e_no e) (settled (hist s2))).
  { intros HS. apply in_split in HE. destruct HE as (a & b & E). rewrite E, <- app_assoc in ND. cbn in ND. apply NoDup_remove_2 in ND.
    apply ND. apply in_or_app. right. apply in_or_app. right. exact HS. }
  split; intros HH; apply NS; unfold settled; apply in_flat_map; eexists; (split; [exact HH|left; reflexivity]).
Qed.
(** what the interface publishes: PublishTask and PublishTaskProgress send a *tork.Task (:158, :674), PublishJob a *tork.Job (:536),
    PublishEvent whatever it is given, a *tork.Job in all calls (handlers/job.go:150, 152, 234), PublishHeartbeat a *tork.Node (:522),
    PublishTaskLogPart a *tork.TaskLogPart (:658), and the scheduler a *tork.ScheduledJob event (api.go:587, 673, 695, 714) *)
Theorem C67_what_is_published_is_readable : forall s q ty body,
  In ty ["*tork.Task"; "*tork.Job"; "*tork.Node"; "*tork.TaskLogPart"; "*tork.ScheduledJob"] ->
  (exists m, snd (publish s q ty body NOk) = Some m) /\ (parses ty body = true -> decodes ty body = true).
Proof.
  intros s q ty body H. split.
  - unfold publish. assert (E : serializable ty = true). { cbn in H. repeat (destruct H as [<-|H]; [reflexivity|]). destruct H. }
    rewrite E. destruct (existsb _ _); eexists; reflexivity.
  - intros P. unfold decodes. rewrite P. cbn in H. repeat (destruct H as [<-|H]; [reflexivity|]). destruct H.
Qed.
(** a *tork.TaskProgress is accepted for publication and then no consumer can read it; no other type behaves like this *)
Theorem C67_task_progress_only : forall s q ty body, parses ty body = true ->
  (((exists m, snd (publish s q ty body NOk) = Some m) /\ decodes ty body = false) <-> ty = "*tork.TaskProgress").
Proof.
  intros s q ty body P. split.
  - intros [[m H] D]. unfold publish in H. destruct (serializable ty) eqn:E; [|discriminate]. unfold decodes in D. rewrite P, andb_true_r in D.
    unfold serializable in E. cbn [existsb] in E, D.
    repeat match type of D with (?b || _)%bool = false => apply orb_false_iff in D as [? D] end.
    repeat match goal with H : String.eqb ty _ = false |- _ => rewrite H in E; clear H end.
    cbn [orb] in E. rewrite ?orb_false_r in E. apply String.eqb_eq in E. exact E.
  - intros ->. split; [|reflexivity]. unfold publish. cbn [serializable existsb String.eqb]. destruct (existsb _ _); eexists; reflexivity.
Qed.
End Rabbit.

(* ------------------------------------------------------------------ *)
(** * The hypotheses are met; what is not guaranteed *)
Definition ex_parses (ty body : string) : bool := negb (String.eqb body "?").
(** a task published to a worker's queue, picked up by a worker whose connection is lost while it runs (and whose later
    acknowledgement is void), given to a second worker, which forwards it to the coordinator *)
Definition ex_acts : list act :=
  [Declare "default"; Declare redeliveries; Subscribe "default"; Subscribe "default"; Subscribe redeliveries;
   Publish "default" task_type "t1" NOk; Deliver 0 0; Take 0 NOk; Lose 0; Deliver 1 0; Finish 0 true; Settle 0; Take 1 NOk; Settle 1; Deliver 2 0; Take 2 NOk; Finish 2 true; Settle 2].
Example C67_nonvacuous : exists s, run ex_parses empty ex_acts = Some s
  /\ calls 0 (hist s) = 1 /\ calls 1 (hist s) = 1 /\ In (Acked 0) (hist s) /\ In (Forwarded 0 1) (hist s) /\ In (Called 2 1 redeliveries task_type "t1") (hist s)
  /\ held s = [].
Proof.
  eexists. split; [vm_compute; reflexivity|]. repeat match goal with |- _ /\ _ => split end; try (vm_compute; reflexivity); cbn; tauto.
Qed.
Example C67_progress_nonvacuous : exists s, run ex_parses empty (firstn 6 ex_acts) = Some s
  /\ nth_error (subs s) 0 = Some (Sub "default" true None Idle) /\ nth_error (waiting s) 0 = Some ("default", Entry 0 task_type "t1" false)
  /\ decodes ex_parses task_type "t1" = true.
Proof. eexists. split; [vm_compute; reflexivity|]. repeat split. Qed.
Example C67_blocked_nonvacuous : exists s, run ex_parses empty [Declare "default"; Subscribe "default"; Publish "default" task_type "?" NOk; Publish "default" task_type "t" NOk; Deliver 0 0] = Some s
  /\ nth_error (subs s) 0 = Some (Sub "default" true (Some (Entry 0 task_type "?" false)) (Received (Entry 0 task_type "?" false)))
  /\ decodes ex_parses task_type "?" = false.
Proof. eexists. split; [vm_compute; reflexivity|]. repeat split. Qed.

(** other messages than tasks (a job, say) can be handled more than once: a redelivered job goes to the handler again *)
Theorem C67_jobs_handled_twice_refuted : exists s, reachable ex_parses s /\
  In (Published 0 "jobs" "*tork.Job" "j" Routed) (hist s) /\ calls 0 (hist s) = 2.
Proof.
  eexists. split.
  - exists [Declare "jobs"; Subscribe "jobs"; Publish "jobs" "*tork.Job" "j" NOk; Deliver 0 0; Take 0 NOk; Lose 0; Subscribe "jobs"; Deliver 1 0; Take 1 NOk].
    vm_compute. reflexivity.
  - split; [cbn; tauto|vm_compute; reflexivity].
Qed.
(** a task whose forwarding fails is acknowledged all the same: no handler ever returned from it, the server holds nothing, nobody will see it again *)
Theorem C67_failed_forward_loses_the_task_refuted : exists s, reachable ex_parses s /\
  In (Published 0 "default" task_type "t1" Routed) (hist s) /\ In (Acked 0) (hist s) /\ held s = []
  /\ calls 0 (hist s) = 0 /\ (forall new, ~ In (Forwarded 0 new) (hist s)).
Proof.
  eexists. split.
  - exists [Declare "default"; Subscribe "default"; Subscribe "default"; Publish "default" task_type "t1" NOk; Deliver 0 0; Lose 0; Deliver 1 0; Take 1 NErr; Settle 1].
    vm_compute. reflexivity.
  - split; [cbn; tauto|]. split; [cbn; tauto|]. split; [vm_compute; reflexivity|]. split; [vm_compute; reflexivity|].
    intros new. cbn. intuition discriminate.
Qed.
(** publishing a task to a queue that nobody has declared succeeds, and the task is gone, also for a worker that subscribes
    afterwards - although the comment at rabbitmq.go:217-219 says that the queue is created *)
Theorem C67_publish_before_subscribe_is_lost_refuted : exists s, reachable ex_parses s /\
  In (Published 0 "default" task_type "t1" NoQueue) (hist s) /\ held s = [] /\ subs s = [Sub "default" true None Idle].
Proof.
  eexists. split.
  - exists [Publish "default" task_type "t1" NOk; Declare "default"; Subscribe "default"]. vm_compute. reflexivity.
  - split; [cbn; tauto|]. split; vm_compute; reflexivity.
Qed.

Print Assumptions C67_every_message_is_somewhere.
Print Assumptions C67_task_handled_at_most_once.
Print Assumptions C67_handlers_get_what_was_published.
Print Assumptions C67_acknowledged_means_dealt_with.
Print Assumptions C67_rejected_means_failed.
Print Assumptions C67_no_silent_loss.
Print Assumptions C67_progress.
Print Assumptions C67_unreadable_message_blocks_its_consumer.
Print Assumptions C67_jobs_handled_twice_refuted.
Print Assumptions C67_failed_forward_loses_the_task_refuted.
Print Assumptions C67_publish_before_subscribe_is_lost_refuted.
