(** C83: a subscription that lost its channel comes back.
    broker/rabbitmq.go:111-134 (NewRabbitMQBroker), 201-214 (DeleteQueue), 242-268 (subscribe up to Consume),
    327-344 (re-subscription), 454-489 (declareQueue), 551-577 (getConnection), 585-631 (Shutdown); queues.go:39.

    The broker holds a fixed number of connections, which it uses in turn, replacing one that is found closed, and a set
    of queue names it believes to exist on the server.  The server is modelled by the AMQP rules the code relies on: an
    exclusive queue belongs to the connection that declared it, can be declared and consumed only on that connection and
    goes away with it; consuming from a queue that does not exist fails; a queue that is deleted or whose connection is
    lost ends its consumers.
    Simplified: connections are numbered in the order they are dialled; queue names with the exclusive prefix are unique
    to this broker (they are random), other queues may be declared by anybody; messages are not modelled here (Rabbit.v),
    nor is the rest of a subscription's life (RabbitStop.v); a queue's type and arguments are the same everywhere. *)
From Coq Require Import String List Bool Arith Lia.
Import ListNotations.
Open Scope string_scope.
Open Scope list_scope.

(* ------------------------------------------------------------------ *)
(** * The code *)

(** rabbitmq.go:38-52: connPool, nextConn, queues; then the server: does it take new connections, which of ours are open,
    which queues exist and, for an exclusive one, on which connection; [fresh]: the number the next dial will get *)
Record st := St { slots : list nat; nxt : nat; cache : list string; fresh : nat;
                  accepts : bool; conns : list nat; queues : list (string * option nat) }.

(** rabbitmq.go:111-134 with [n] connections (3 in the code) *)
Definition new_broker (n : nat) (qs : list (string * option nat)) : st := St (seq 0 n) 0 [] n true (seq 0 n) qs.

(** queues.go:39, rabbitmq.go:470 *)
Definition exclusive (q : string) : bool := String.prefix "x-" q.

Definition is_open (s : st) (c : nat) : bool := existsb (Nat.eqb c) (conns s).
(** the queue on the server: [None] if there is none, else its owner if it is exclusive *)
Definition lookup (s : st) (q : string) : option (option nat) :=
  option_map snd (find (fun e => String.eqb (fst e) q) (queues s)).
Definition known (s : st) (q : string) : bool := existsb (String.eqb q) (cache s).

Fixpoint upd (l : list nat) (i : nat) (a : nat) : list nat :=
  match l, i with [], _ => [] | _ :: l, O => a :: l | x :: l, S i => x :: upd l i a end.

(** rabbitmq.go:571-575 *)
Definition turn (s : st) : nat := if Nat.leb (length (slots s)) (S (nxt s)) then 0 else S (nxt s).

(** rabbitmq.go:551-577; the connection, if there is one *)
Definition get_connection (s : st) : st * option nat :=
  match nth_error (slots s) (nxt s) with
  | None => (s, None)
  | Some c =>
      if is_open s c
      then (St (slots s) (turn s) (cache s) (fresh s) (accepts s) (conns s) (queues s), Some c)
      else if accepts s
           then (St (upd (slots s) (nxt s) (fresh s)) (turn s) [] (S (fresh s)) true (fresh s :: conns s) (queues s), Some (fresh s))
           else (St (slots s) (nxt s) [] (fresh s) false (conns s) (queues s), None)
  end.

(** QueueDeclare as the server answers it on connection [c] *)
Definition server_declare (s : st) (c : nat) (q : string) : st * bool :=
  if is_open s c then
    match lookup s q with
    | None => (St (slots s) (nxt s) (cache s) (fresh s) (accepts s) (conns s) ((q, if exclusive q then Some c else None) :: queues s), true)
    | Some None => (s, true)
    | Some (Some o) => (s, Nat.eqb o c)
    end
  else (s, false).

Definition remember (s : st) (q : string) : st :=
  St (slots s) (nxt s) (q :: cache s) (fresh s) (accepts s) (conns s) (queues s).

(** rabbitmq.go:454-489 *)
Definition declare_queue (s : st) (c : nat) (q : string) : st * bool :=
  if known s q then (s, true)
  else let (s', ok) := server_declare s c q in if ok then (remember s' q, true) else (s', false).

(** Qos and Consume as the server answers them *)
Definition consume (s : st) (c : nat) (q : string) : bool :=
  is_open s c && match lookup s q with None => false | Some None => true | Some (Some o) => Nat.eqb o c end.

(** rabbitmq.go:242-268: one call of subscribe; was it successful? *)
Definition subscribe (s : st) (q : string) : st * bool :=
  let (s1, c) := get_connection s in
  match c with
  | None => (s1, false)
  | Some c => let (s2, ok) := declare_queue s1 c q in if ok then (s2, consume s2 c q) else (s2, false)
  end.

(** rabbitmq.go:330-341: up to [k] attempts, one after the other *)
Fixpoint attempts (k : nat) (s : st) (q : string) : st * bool :=
  match k with
  | O => (s, false)
  | S k => let (s', ok) := subscribe s q in if ok then (s', true) else attempts k s' q
  end.

(** rabbitmq.go:201-214: note that the queue stays in b.queues *)
Definition delete_queue (s : st) (q : string) : st :=
  let (s1, c) := get_connection s in
  match c with
  | None => s1
  | Some _ => St (slots s1) (nxt s1) (cache s1) (fresh s1) (accepts s1) (conns s1) (filter (fun e => negb (String.eqb (fst e) q)) (queues s1))
  end.

(** What can happen. *)
Inductive act :=
| Subscribe (q : string)          (* by any of the subscriptions, first or again *)
| Use                             (* any other use of a connection: publish (:497), PublishTask (:220) *)
| DeleteQueue (q : string)        (* DELETE /queues/:name, here or by another process *)
| Lost (c : nat)                  (* one connection is lost, with its exclusive queues *)
| Crash (kept : list string)      (* the server goes down and comes back: no connection and only [kept] (durable) queues are left *)
| Accepting (b : bool)            (* the server starts or stops taking new connections *)
| Foreign (q : string).           (* another process declares a queue that is not exclusive *)

Definition without (s : st) (conns' : list nat) (qs : list (string * option nat)) : st :=
  St (slots s) (nxt s) (cache s) (fresh s) (accepts s) conns' qs.

Definition step (s : st) (a : act) : st :=
  match a with
  | Subscribe q => fst (subscribe s q)
  | Use => fst (get_connection s)
  | DeleteQueue q => delete_queue s q
  | Lost c => without s (filter (fun x => negb (Nat.eqb x c)) (conns s))
                (filter (fun e => match snd e with Some o => negb (Nat.eqb o c) | None => true end) (queues s))
  | Crash kept => without s [] (filter (fun e => match snd e with Some _ => false | None => existsb (String.eqb (fst e)) kept end) (queues s))
  | Accepting b => St (slots s) (nxt s) (cache s) (fresh s) b (conns s) (queues s)
  | Foreign q => if exclusive q then s
                 else match lookup s q with
                      | Some _ => s
                      | None => without s (conns s) ((q, None) :: queues s)
                      end
  end.

Definition run (s : st) (l : list act) : st := fold_left step l s.

(* ------------------------------------------------------------------ *)
(** * Proofs *)

(** what holds of queue [q] in a broker nobody has deleted [q] from *)
Record good (q : string) (s : st) : Prop := Good {
  g_slots : slots s <> [];
  g_next : nxt s < length (slots s);
  g_fresh : forall c, In c (slots s) -> c < fresh s;
  g_conns : forall c, In c (conns s) -> c < fresh s;
  g_missing : lookup s q = None -> known s q = true -> exists i c, nth_error (slots s) i = Some c /\ is_open s c = false;
  g_owner : forall o, lookup s q = Some (Some o) -> exclusive q = true /\ is_open s o = true /\ In o (slots s);
  g_shared : lookup s q = Some None -> exclusive q = false }.

Lemma is_open_in s c : is_open s c = true <-> In c (conns s).
Proof.
  unfold is_open. rewrite existsb_exists. split.
  - intros (x & I & E). apply Nat.eqb_eq in E. now subst.
  - intros I. exists c. split; auto. apply Nat.eqb_refl.
Qed.

Lemma upd_length l : forall i a, length (upd l i a) = length l.
Proof. induction l; intros [|i] b; cbn; auto. Qed.
Lemma upd_nth_same l : forall i a, i < length l -> nth_error (upd l i a) i = Some a.
Proof. induction l; intros [|i] b H; cbn in *; try lia; auto. apply IHl. lia. Qed.
Lemma upd_nth_other l : forall i j a, i <> j -> nth_error (upd l i a) j = nth_error l j.
Proof. induction l; intros [|i] [|j] b H; cbn; auto; congruence. Qed.
Lemma upd_in l : forall i a x, In x (upd l i a) -> x = a \/ In x l.
Proof. induction l; intros [|i] b x H; cbn in *; auto; intuition. apply IHl in H0. intuition. Qed.

Lemma turn_lt s : slots s <> [] -> turn s < length (slots s).
Proof.
  intros H. unfold turn. destruct (Nat.leb (length (slots s)) (S (nxt s))) eqn:E.
  - destruct (slots s); [easy|cbn; lia].
  - apply Nat.leb_gt in E. exact E.
Qed.

Lemma lookup_queues s s' q : queues s' = queues s -> lookup s' q = lookup s q.
Proof. unfold lookup. now intros ->. Qed.

Lemma good_get q s s' c : good q s -> get_connection s = (s', c) ->
  good q s' /\ (forall x, c = Some x -> is_open s' x = true) /\ lookup s' q = lookup s q /\ (known s q = false -> known s' q = false).
Proof.
  intros G H. unfold get_connection in H.
  destruct (nth_error (slots s) (nxt s)) as [x|] eqn:N.
  2:{ apply nth_error_None in N. destruct G. lia. }
  destruct (is_open s x) eqn:O; [|destruct (accepts s)]; injection H as <- <-; (split; [|split; [|split]]);
    try reflexivity; try (intros ? [= <-]); try discriminate; auto.
  - destruct G. constructor; auto; cbn [slots nxt]. now apply turn_lt.
  - destruct G. constructor; cbn [slots nxt fresh conns].
    + intros E. apply (f_equal (@length nat)) in E. rewrite upd_length in E. destruct (slots s); [easy|discriminate E].
    + rewrite upd_length. now apply turn_lt.
    + intros c I. apply upd_in in I as [->|I]; [lia|]. apply g_fresh0 in I. lia.
    + intros c [<-|I]; [lia|]. apply g_conns0 in I. lia.
    + intros _ K. discriminate K.
    + intros o L. destruct (g_owner0 o L) as (E & P & I). split; [exact E|]. split.
      * apply is_open_in. cbn. right. now apply is_open_in.
      * apply In_nth_error in I as (i & I). apply nth_error_In with i. rewrite upd_nth_other; [exact I|].
        intros <-. congruence.
    + exact g_shared0.
  - apply is_open_in. now left.
  - destruct G. constructor; cbn [slots nxt fresh conns]; auto. intros _ K. discriminate K.
Qed.

Lemma known_remember s q q' : known (remember s q') q = String.eqb q q' || known s q.
Proof. reflexivity. Qed.

Lemma good_declare q s c q' s' ok : good q s -> is_open s c = true -> In c (slots s) -> declare_queue s c q' = (s', ok) -> good q s'.
Proof.
  intros G O IC H. unfold declare_queue in H. destruct (known s q') eqn:K; [injection H as <- _; exact G|].
  unfold server_declare in H. rewrite O in H.
  destruct (lookup s q') as [[o|]|] eqn:L.
  - destruct (Nat.eqb o c); injection H as <- _; [|exact G]. destruct G. constructor; auto.
    intros L' K'. rewrite known_remember in K'. destruct (String.eqb_spec q q'); [subst; unfold lookup in *; cbn [queues remember] in L'; congruence|].
    exact (g_missing0 L' K').
  - injection H as <- _. destruct G. constructor; auto.
    intros L' K'. rewrite known_remember in K'. destruct (String.eqb_spec q q'); [subst; unfold lookup in *; cbn [queues remember] in L'; congruence|].
    exact (g_missing0 L' K').
  - injection H as <- _. destruct G. constructor; cbn [slots nxt fresh conns remember]; auto.
    + unfold lookup, known. cbn [queues remember find fst existsb cache]. destruct (String.eqb_spec q q').
      * subst. rewrite String.eqb_refl. discriminate.
      * destruct (String.eqb_spec q' q); [congruence|]. exact g_missing0.
    + intros o. unfold lookup. cbn [queues remember find fst].
      destruct (String.eqb_spec q' q) as [->|N]; [|apply g_owner0]. cbn. destruct (exclusive q); [|discriminate].
      intros [= <-]. auto.
    + unfold lookup. cbn [queues remember find fst].
      destruct (String.eqb_spec q' q) as [->|N]; [|exact g_shared0]. cbn. destruct (exclusive q); [discriminate|auto].
Qed.

Lemma get_in_slots q s s' c : good q s -> get_connection s = (s', Some c) -> In c (slots s').
Proof.
  intros G H. unfold get_connection in H. destruct (nth_error (slots s) (nxt s)) as [x|] eqn:N; [|discriminate].
  destruct (is_open s x); [|destruct (accepts s); [|discriminate]]; injection H as <- <-; cbn.
  - eapply nth_error_In; eauto.
  - apply nth_error_In with (nxt s). apply upd_nth_same. destruct G. lia.
Qed.

Lemma good_subscribe q s q' : good q s -> good q (fst (subscribe s q')).
Proof.
  intros G. unfold subscribe. destruct (get_connection s) as [s1 [c|]] eqn:E.
  - destruct (good_get _ _ _ _ G E) as (G1 & O & _). destruct (declare_queue s1 c q') as [s2 ok] eqn:D.
    assert (G2: good q s2) by (eapply good_declare; [..|exact D]; eauto using get_in_slots).
    destruct ok; exact G2.
  - exact (proj1 (good_get _ _ _ _ G E)).
Qed.

Lemma find_filter_some {A} (f g : A -> bool) l a : find f (filter g l) = Some a -> exists b, find f l = Some b.
Proof.
  induction l as [|x l IH]; cbn; [discriminate|]. destruct (g x); cbn.
  - destruct (f x); eauto.
  - destruct (f x); eauto.
Qed.

Lemma unique_find q (l : list (string * option nat)) (g : string * option nat -> bool) :
  NoDup (map fst l) -> find (fun e => String.eqb (fst e) q) (filter g l)
    = match find (fun e => String.eqb (fst e) q) l with Some e => if g e then Some e else None | None => None end.
Proof.
  induction l as [|[n o] l IH]; cbn; [reflexivity|]. intros ND. inversion ND as [|? ? NI ND']; subst.
  destruct (String.eqb_spec n q) as [->|N]; cbn [fst].
  - destruct (g (q, o)) eqn:E; cbn.
    + now rewrite String.eqb_refl.
    + rewrite (IH ND'). destruct (find _ l) as [[n' o']|] eqn:F; [|reflexivity].
      apply find_some in F as [F1 F2]. apply String.eqb_eq in F2. cbn in F2. subst n'. exfalso. apply NI.
      apply in_map_iff. now exists (q, o').
  - destruct (g (n, o)); cbn; [|now apply IH]. destruct (String.eqb_spec n q); [congruence|]. now apply IH.
Qed.

(** every queue name is on the server once *)
Definition unique (s : st) : Prop := NoDup (map fst (queues s)).

Lemma lookup_none_notin s q : lookup s q = None -> ~ In q (map fst (queues s)).
Proof.
  unfold lookup. intros H I. destruct (find _ (queues s)) eqn:F; [discriminate|].
  apply in_map_iff in I as ([n o] & <- & I). apply find_none with (x := (n, o)) in F; auto. cbn in F.
  now rewrite String.eqb_refl in F.
Qed.

Lemma get_queues s : queues (fst (get_connection s)) = queues s.
Proof.
  unfold get_connection. destruct (nth_error _ _); [|reflexivity]. destruct (is_open s n); [reflexivity|].
  destruct (accepts s); reflexivity.
Qed.

Lemma filter_nodup (l : list (string * option nat)) g : NoDup (map fst l) -> NoDup (map fst (filter g l)).
Proof.
  induction l as [|e l IH]; cbn; auto. intros ND. inversion ND as [|? ? NI ND']; subst. destruct (g e); cbn; auto.
  constructor; auto. intros I. apply NI. apply in_map_iff in I as (x & <- & I). apply filter_In in I as [I _]. now apply in_map.
Qed.

Lemma unique_step s a : unique s -> unique (step s a).
Proof.
  unfold unique. intros U. destruct a; cbn [step].
  - unfold subscribe. destruct (get_connection s) as [s1 [c|]] eqn:E;
      (assert (U1: NoDup (map fst (queues s1))) by (rewrite <- (get_queues s), E in U; exact U)).
    2: exact U1.
    assert (D: NoDup (map fst (queues (fst (declare_queue s1 c q))))).
    { unfold declare_queue, server_declare. destruct (known s1 q); [exact U1|]. destruct (is_open s1 c); [|exact U1].
      destruct (lookup s1 q) as [[o|]|] eqn:L; [destruct (Nat.eqb o c); exact U1|exact U1|].
      cbn. constructor; auto. now apply lookup_none_notin. }
    destruct (declare_queue s1 c q) as [s2 []]; exact D.
  - now rewrite get_queues.
  - unfold delete_queue. destruct (get_connection s) as [s1 [c|]] eqn:E;
      (assert (U1: NoDup (map fst (queues s1))) by (rewrite <- (get_queues s), E in U; exact U)); [|exact U1].
    cbn. now apply filter_nodup.
  - cbn. now apply filter_nodup.
  - cbn. now apply filter_nodup.
  - exact U.
  - destruct (exclusive q); [exact U|]. destruct (lookup s q) eqn:L; [exact U|]. cbn. constructor; auto. now apply lookup_none_notin.
Qed.

Lemma good_step q s a : unique s -> good q s -> a <> DeleteQueue q -> good q (step s a).
Proof.
  intros U G N. destruct a; cbn [step].
  - now apply good_subscribe.
  - destruct (get_connection s) eqn:E. exact (proj1 (good_get _ _ _ _ G E)).
  - assert (Q: q0 <> q) by congruence. unfold delete_queue. destruct (get_connection s) as [s1 [c|]] eqn:E;
      destruct (good_get _ _ _ _ G E) as (G1 & _); [|exact G1].
    assert (U1: unique s1) by (unfold unique in *; rewrite <- (get_queues s), E in U; exact U).
    assert (L: forall x, lookup (St (slots s1) (nxt s1) (cache s1) (fresh s1) (accepts s1) (conns s1)
        (filter (fun e => negb (String.eqb (fst e) q0)) (queues s1))) q = x <-> lookup s1 q = x).
    { intros x. unfold lookup. cbn [queues]. rewrite (unique_find _ _ _ U1).
      destruct (find _ (queues s1)) as [[n o]|] eqn:F; [|reflexivity].
      apply find_some in F as [_ F]. apply String.eqb_eq in F. cbn in F. subst n. cbn [fst].
      destruct (String.eqb_spec q q0); [congruence|]. reflexivity. }
    destruct G1. constructor; cbn [slots nxt fresh conns]; auto.
    + intros X K. apply L in X. exact (g_missing0 X K).
    + intros o X. apply L in X. exact (g_owner0 o X).
    + intros X. apply L in X. exact (g_shared0 X).
  - (* Lost *)
    assert (OP: forall x, is_open (without s (filter (fun x => negb (Nat.eqb x c)) (conns s))
       (filter (fun e => match snd e with Some o => negb (Nat.eqb o c) | None => true end) (queues s))) x
       = is_open s x && negb (Nat.eqb x c)).
    { intros x. apply eq_true_iff_eq. rewrite andb_true_iff, !is_open_in. cbn [conns without]. apply filter_In. }
    assert (LK: lookup (without s (filter (fun x => negb (Nat.eqb x c)) (conns s))
       (filter (fun e => match snd e with Some o => negb (Nat.eqb o c) | None => true end) (queues s))) q
       = match lookup s q with Some (Some o) => if Nat.eqb o c then None else Some (Some o) | x => x end).
    { unfold lookup. cbn [queues without]. rewrite (unique_find _ _ _ U). destruct (find _ (queues s)) as [[n [o|]]|]; cbn; auto.
      destruct (Nat.eqb o c); reflexivity. }
    destruct G. constructor; cbn [slots nxt fresh without]; auto.
    + intros x I. cbn in I. apply filter_In in I as [I _]. auto.
    + intros L K. rewrite LK in L. change (known s q = true) in K. destruct (lookup s q) as [[o|]|] eqn:E; [|discriminate|].
      * destruct (Nat.eqb_spec o c) as [->|]; [|discriminate]. destruct (g_owner0 c eq_refl) as (_ & _ & I).
        apply In_nth_error in I as (i & I). exists i, c. split; [exact I|]. rewrite OP, Nat.eqb_refl. apply andb_false_r.
      * destruct (g_missing0 eq_refl K) as (i & x & I & O). exists i, x. split; [exact I|]. rewrite OP, O. reflexivity.
    + intros o L. rewrite LK in L. destruct (lookup s q) as [[o'|]|] eqn:E; try discriminate.
      destruct (Nat.eqb_spec o' c); [discriminate|]. injection L as ->. destruct (g_owner0 o eq_refl) as (X & P & I).
      split; auto. split; auto. rewrite OP, P. cbn. now apply negb_true_iff, Nat.eqb_neq.
    + intros L. rewrite LK in L. destruct (lookup s q) as [[o|]|]; try discriminate; auto. destruct (Nat.eqb o c); discriminate.
  - (* Crash *)
    destruct G. constructor; cbn [slots nxt fresh without]; auto.
    + intros x I. destruct I.
    + intros _ _. destruct (slots s) as [|c l] eqn:E; [easy|]. exists 0, c. split; [|reflexivity]. first [rewrite E; reflexivity|reflexivity].
    + intros o L. exfalso. unfold lookup in L. cbn [queues without] in L. rewrite (unique_find _ _ _ U) in L.
      destruct (find _ (queues s)) as [[n [x|]]|]; cbn in L; try discriminate. destruct (existsb _ kept); discriminate.
    + intros L. unfold lookup in L. cbn [queues without] in L. rewrite (unique_find _ _ _ U) in L.
      apply g_shared0. unfold lookup. destruct (find _ (queues s)) as [[n [x|]]|]; cbn in *; try discriminate; auto.
  - destruct G. constructor; auto.
  - destruct (exclusive q0) eqn:E; [exact G|]. destruct (lookup s q0) eqn:L; [exact G|].
    assert (LK: lookup (without s (conns s) ((q0, None) :: queues s)) q = if String.eqb q0 q then Some None else lookup s q).
    { unfold lookup. cbn [queues without find fst]. now destruct (String.eqb q0 q). }
    destruct G. constructor; cbn [slots nxt fresh without]; auto.
    + intros X K. rewrite LK in X. destruct (String.eqb q0 q); [discriminate|]. exact (g_missing0 X K).
    + intros o X. rewrite LK in X. destruct (String.eqb q0 q); [discriminate|]. exact (g_owner0 o X).
    + intros X. rewrite LK in X. destruct (String.eqb_spec q0 q); [subst; auto|]. auto.
Qed.

Definition initial (n : nat) (qs : list (string * option nat)) : Prop :=
  0 < n /\ NoDup (map fst qs) /\ Forall (fun e => snd e = None /\ exclusive (fst e) = false) qs.

Lemma good_new n qs q : initial n qs -> good q (new_broker n qs).
Proof.
  intros (P & ND & F).
  assert (L: forall o, lookup (new_broker n qs) q = Some o -> o = None /\ exclusive q = false).
  { intros o L. unfold lookup in L. cbn [queues new_broker] in L. destruct (find _ qs) as [[a b]|] eqn:E; [|discriminate].
    injection L as <-. apply find_some in E as [I E]. apply String.eqb_eq in E. cbn in E. subst a.
    rewrite Forall_forall in F. exact (F _ I). }
  constructor; cbn [slots nxt fresh conns new_broker].
  - destruct n; [lia|discriminate].
  - now rewrite seq_length.
  - intros c I. apply in_seq in I. lia.
  - intros c I. apply in_seq in I. lia.
  - intros _ K. discriminate K.
  - intros o X. apply L in X as [X _]. discriminate.
  - intros X. apply L in X. tauto.
Qed.

Lemma good_run q l : forall s, unique s -> good q s -> ~ In (DeleteQueue q) l -> unique (run s l) /\ good q (run s l).
Proof.
  induction l as [|a l IH]; intros s U G N; [auto|].
  apply (IH (step s a)).
  - now apply unique_step.
  - apply good_step; auto. intros ->. apply N. now left.
  - intros I. apply N. now right.
Qed.

(** One attempt: it works, or [q] is missing but believed to exist and the connection was open, or [q] belongs to another
    connection; nothing else changes but whose turn it is. *)
Lemma attempt q s : good q s -> accepts s = true -> snd (subscribe s q) = false ->
  let s' := fst (subscribe s q) in
  accepts s' = true /\ nxt s' = turn s /\ length (slots s') = length (slots s) /\ lookup s' q = lookup s q /\
  exists c, nth_error (slots s) (nxt s) = Some c /\
    ((lookup s q = None /\ known s q = true /\ known s' q = true /\ is_open s c = true /\ slots s' = slots s /\ conns s' = conns s) \/
     (exists o, lookup s q = Some (Some o) /\ o <> c /\
        forall i, i <> nxt s -> nth_error (slots s') i = nth_error (slots s) i)).
Proof.
  intros G A F. pose proof (g_next _ _ G) as GN.
  destruct (nth_error (slots s) (nxt s)) as [c|] eqn:N; [|apply nth_error_None in N; lia].
  unfold subscribe in *. destruct (get_connection s) as [s1 oc] eqn:E.
  destruct (good_get _ _ _ _ G E) as (G1 & O1 & L1 & K1).
  assert (X: exists x, oc = Some x /\ accepts s1 = true /\ nxt s1 = turn s /\ length (slots s1) = length (slots s) /\
     ((is_open s c = true /\ x = c /\ slots s1 = slots s /\ conns s1 = conns s /\ known s1 q = known s q) \/
      (is_open s c = false /\ x = fresh s /\ known s1 q = false)) /\
     forall i, i <> nxt s -> nth_error (slots s1) i = nth_error (slots s) i).
  { unfold get_connection in E. rewrite N in E. destruct (is_open s c) eqn:O.
    - injection E as <- <-. exists c. repeat (split; [reflexivity || assumption|]). split; [left|]; auto 10.
    - rewrite A in E. injection E as <- <-. exists (fresh s). cbn. rewrite upd_length. repeat (split; [reflexivity|]).
      split; [right; auto|]. intros i I. apply upd_nth_other. congruence. }
  destruct X as (x & -> & A1 & T1 & S1 & C1 & R1). specialize (O1 _ eq_refl).
  unfold declare_queue in *. destruct (known s1 q) eqn:K.
  - cbn [fst snd] in *. unfold consume in F. rewrite O1 in F. cbn in F.
    split; [exact A1|]. split; [exact T1|]. split; [exact S1|]. split; [exact L1|]. exists c. split; [reflexivity|].
    destruct C1 as [(O & -> & EQ & EC & EK)|(O & -> & EK)]; [|congruence].
    rewrite L1 in F. destruct (lookup s q) as [[o|]|]; [|discriminate|].
    + right. exists o. split; [reflexivity|]. split; [now apply Nat.eqb_neq|exact R1].
    + left. repeat split; auto; congruence.
  - unfold server_declare in *. rewrite O1 in *. rewrite L1 in *. destruct (lookup s q) as [[o|]|] eqn:L.
    + destruct (Nat.eqb_spec o x) as [EO|NE]; cbn [fst snd] in *.
      * exfalso. unfold consume in F. change (is_open (remember s1 q) x) with (is_open s1 x) in F. rewrite O1 in F.
        change (lookup (remember s1 q) q) with (lookup s1 q) in F. rewrite L1 in F. cbn in F. apply Nat.eqb_neq in F. congruence.
      * split; [exact A1|]. split; [exact T1|]. split; [exact S1|]. split; [exact L1|]. exists c. split; [reflexivity|].
        right. exists o. split; [reflexivity|]. split; [|exact R1].
        destruct C1 as [(O & -> & _)|(O & -> & _)]; [exact NE|].
        destruct (g_owner _ _ G o L) as (_ & OO & _). congruence.
    + exfalso. cbn [fst snd] in F. unfold consume in F. change (is_open (remember s1 q) x) with (is_open s1 x) in F. rewrite O1 in F.
      change (lookup (remember s1 q) q) with (lookup s1 q) in F. rewrite L1 in F. discriminate F.
    + exfalso. cbn [fst snd] in F. unfold consume in F.
      match type of F with context[lookup ?a q] => change (lookup a q) with (option_map snd (find (fun e => String.eqb (fst e) q) ((q, if exclusive q then Some x else None) :: queues s1))) in F end.
      cbn [find fst] in F. rewrite String.eqb_refl in F. cbn [option_map snd] in F.
      match type of F with context[is_open ?a x] => change (is_open a x) with (is_open s1 x) in F end. rewrite O1 in F.
      destruct (exclusive q); [rewrite Nat.eqb_refl in F|]; discriminate F.
Qed.

(** the slot [d] turns ahead is one where the attempt works *)
Lemma attempts_reach q d : forall s, good q s -> accepts s = true ->
  (exists c, nth_error (slots s) ((nxt s + d) mod length (slots s)) = Some c /\
     ((lookup s q = None /\ is_open s c = false) \/ lookup s q = Some (Some c) \/ lookup s q = Some None)) ->
  exists k, k <= S d /\ snd (attempts k s q) = true.
Proof.
  induction d as [|d IH]; intros s G A (c & N & C).
  - exists 1. split; [lia|]. cbn. destruct (subscribe s q) as [s' ok] eqn:E. destruct ok; [reflexivity|]. exfalso.
    assert (F: snd (subscribe s q) = false) by now rewrite E.
    destruct (attempt _ _ G A F) as (_ & _ & _ & _ & x & X & D).
    rewrite Nat.add_0_r, Nat.mod_small in N by (exact (g_next _ _ G)). rewrite N in X. injection X as <-.
    destruct D as [(L & _ & _ & O & _)|(o & L & NE & _)]; destruct C as [[C1 C2]|[C1|C1]]; congruence.
  - destruct (subscribe s q) as [s' ok] eqn:E. destruct ok.
    + exists 1. split; [lia|]. cbn. now rewrite E.
    + assert (F: snd (subscribe s q) = false) by now rewrite E.
      pose proof (good_subscribe q s q G) as G'. rewrite E in G'. cbn in G'.
      destruct (attempt _ _ G A F) as (A' & T' & S' & L' & x & X & D). rewrite E in *. cbn [fst] in *.
      pose proof (g_next _ _ G) as GN.
      assert (IX: (nxt s' + d) mod length (slots s') = (nxt s + S d) mod length (slots s)).
      { rewrite T', S'. unfold turn. destruct (Nat.leb_spec (length (slots s)) (S (nxt s))) as [LE|GT].
        - replace (nxt s + S d) with (d + 1 * length (slots s)) by lia. rewrite Nat.mod_add by lia. reflexivity.
        - f_equal. lia. }
      destruct (IH s' G' A') as (k & K1 & K2).
      * exists c. rewrite IX, L'. destruct D as [(L & K & K' & O & ES & EC)|(o & L & NE & R)].
        -- split; [now rewrite ES|]. destruct C as [[C1 C2]|[C1|C1]]; [|congruence|congruence].
           left. split; [exact C1|]. unfold is_open in *. now rewrite EC.
        -- destruct C as [[C1 C2]|[C1|C1]]; try congruence. assert (c = o) by congruence. subst c.
           split; [|right; left; congruence]. rewrite R; [exact N|].
           intros EQ. rewrite EQ in N. congruence.
      * exists (S k). split; [lia|]. cbn [attempts]. rewrite E. exact K2.
Qed.

Lemma attempts_mono q k : forall n s, k <= n -> snd (attempts k s q) = true -> snd (attempts n s q) = true.
Proof.
  induction k as [|k IH]; intros [|n] s L H; cbn [attempts snd] in *; try discriminate; try lia.
  destruct (subscribe s q) as [s' []]; [reflexivity|]. apply IH; auto. lia.
Qed.

Lemma ahead n i j : i < n -> j < n -> exists d, d < n /\ (i + d) mod n = j.
Proof.
  intros I J. destruct (le_lt_dec i j).
  - exists (j - i). split; [lia|]. rewrite Nat.mod_small; lia.
  - exists (n - i + j). split; [lia|]. replace (i + (n - i + j)) with (j + 1 * n) by lia.
    rewrite Nat.mod_add by lia. apply Nat.mod_small. exact J.
Qed.

Lemma good_attempts q s : good q s -> accepts s = true -> snd (attempts (length (slots s)) s q) = true.
Proof.
  intros G A. pose proof (g_next _ _ G) as GN.
  assert (T: (exists j c, nth_error (slots s) j = Some c /\
     ((lookup s q = None /\ is_open s c = false) \/ lookup s q = Some (Some c) \/ lookup s q = Some None)) \/
     (lookup s q = None /\ known s q = false)).
  { destruct (lookup s q) as [[o|]|] eqn:L.
    - left. destruct (g_owner _ _ G o L) as (_ & _ & I). apply In_nth_error in I as (j & I). eauto 6.
    - left. destruct (nth_error (slots s) (nxt s)) as [c|] eqn:N; [|apply nth_error_None in N; lia]. eauto 6.
    - destruct (known s q) eqn:K; [|now right]. left. destruct (g_missing _ _ G L K) as (i & c & I & O). eauto 8. }
  destruct T as [(j & c & N & C)|[L K]].
  - assert (J: j < length (slots s)) by (apply nth_error_Some; congruence).
    destruct (ahead _ _ _ GN J) as (d & D & E). destruct (attempts_reach q d s G A) as (k & K1 & K2).
    + exists c. rewrite E. auto.
    + eapply attempts_mono; [|exact K2]. lia.
  - destruct (length (slots s)) as [|n] eqn:E; [lia|]. cbn [attempts].
    destruct (subscribe s q) as [s' ok] eqn:S. destruct ok; [reflexivity|]. exfalso.
    assert (F: snd (subscribe s q) = false) by now rewrite S.
    destruct (attempt _ _ G A F) as (_ & _ & _ & _ & x & _ & [(_ & K' & _)|(o & L' & _)]); congruence.
Qed.

Lemma slots_length s a : length (slots (step s a)) = length (slots s).
Proof.
  assert (G: forall s, length (slots (fst (get_connection s))) = length (slots s)).
  { intros x. unfold get_connection. destruct (nth_error _ _); [|reflexivity]. destruct (is_open x n); [reflexivity|].
    destruct (accepts x); cbn; [apply upd_length|reflexivity]. }
  destruct a; cbn [step]; try reflexivity.
  - unfold subscribe. specialize (G s). destruct (get_connection s) as [s1 [c|]]; [|exact G].
    assert (D: slots (fst (declare_queue s1 c q)) = slots s1).
    { unfold declare_queue, server_declare. destruct (known s1 q); [reflexivity|]. destruct (is_open s1 c); [|reflexivity].
      destruct (lookup s1 q) as [[o|]|]; [destruct (Nat.eqb o c); reflexivity|reflexivity|reflexivity]. }
    destruct (declare_queue s1 c q) as [s2 []]; cbn in *; now rewrite D.
  - apply G.
  - unfold delete_queue. specialize (G s). destruct (get_connection s) as [s1 [c|]]; exact G.
  - destruct (exclusive q); [reflexivity|]. destruct (lookup s q); reflexivity.
Qed.

Lemma run_slots l : forall s, length (slots (run s l)) = length (slots s).
Proof. induction l as [|a l IH]; intros s; [reflexivity|]. unfold run in *. cbn. rewrite IH. apply slots_length. Qed.

(* ------------------------------------------------------------------ *)
(** * Theorems *)

(** C83.  Whatever connections were lost, whatever the server did and whoever else subscribed or published, as long as
    nobody deleted queue [q]: once the server takes connections again, [n] attempts in a row (the size of the pool, 3;
    the code makes 20) bring a subscription to [q] back. *)
Theorem C83_comes_back : forall n qs q l, initial n qs -> ~ In (DeleteQueue q) l ->
  accepts (run (new_broker n qs) l) = true -> snd (attempts n (run (new_broker n qs) l) q) = true.
Proof.
  intros n qs q l I ND A.
  destruct (good_run q l (new_broker n qs)) as [_ G]; auto.
  - unfold unique. cbn. apply I.
  - now apply good_new.
  - replace n with (length (slots (run (new_broker n qs) l))) at 1; [now apply good_attempts|].
    rewrite run_slots. cbn. apply seq_length.
Qed.

(** ... and when it says so, it is true: the queue exists and this connection may read it. *)
Theorem C83_success_is_real : forall s q s', subscribe s q = (s', true) ->
  exists c, In c (conns s') /\ In c (slots s') /\ (lookup s' q = Some None \/ lookup s' q = Some (Some c)).
Proof.
  intros s q s' H. unfold subscribe in H. destruct (get_connection s) as [s1 [c|]] eqn:E; [|discriminate].
  destruct (declare_queue s1 c q) as [s2 ok] eqn:D. destruct ok; [|discriminate]. injection H as -> H.
  unfold consume in H. apply andb_true_iff in H as [O L]. exists c. apply is_open_in in O. split; [exact O|]. split.
  - assert (I: In c (slots s1)).
    { unfold get_connection in E. destruct (nth_error (slots s) (nxt s)) as [x|] eqn:N; [|discriminate].
      destruct (is_open s x); [|destruct (accepts s); [|discriminate]]; injection E as <- <-; cbn.
      - eapply nth_error_In; eauto.
      - apply nth_error_In with (nxt s). apply upd_nth_same. apply nth_error_Some. congruence. }
    unfold declare_queue, server_declare in D. destruct (known s1 q); [injection D as <-; exact I|].
    destruct (is_open s1 c); [|discriminate]. destruct (lookup s1 q) as [[o|]|]; [destruct (Nat.eqb o c)|..];
      injection D as <-; try exact I; discriminate.
  - destruct (lookup s' q) as [[o|]|]; [right|now left|discriminate]. apply Nat.eqb_eq in L. now subst.
Qed.

(** A connection handed out is open and one of the pool's; the slots take turns. *)
Theorem C83_connections_are_open : forall s s' c, get_connection s = (s', Some c) -> In c (conns s') /\ nth_error (slots s') (nxt s) = Some c.
Proof.
  intros s s' c E. unfold get_connection in E. destruct (nth_error (slots s) (nxt s)) as [x|] eqn:N; [|discriminate].
  destruct (is_open s x) eqn:O; [|destruct (accepts s); [|discriminate]]; injection E as <- <-; cbn.
  - split; [now apply is_open_in|exact N].
  - split; [now left|]. apply upd_nth_same. apply nth_error_Some. congruence.
Qed.

(** C83, negative: a queue that was deleted (DELETE /queues/:name).  As long as no connection is lost, every later attempt
    of a broker that has subscribed to it before fails, however many: its consumers never come back. *)
Theorem C83_deleted_queue_refuted : forall k s q,
  known s q = true -> lookup s q = None -> (forall c, In c (slots s) -> is_open s c = true) ->
  snd (attempts k s q) = false.
Proof.
  induction k as [|k IH]; intros s q K L O; [reflexivity|]. cbn [attempts].
  assert (X: exists s', subscribe s q = (s', false) /\ known s' q = true /\ lookup s' q = None /\
                       (forall c, In c (slots s') -> is_open s' c = true)).
  { unfold subscribe, get_connection. destruct (nth_error (slots s) (nxt s)) as [c|] eqn:N; [|exists s; auto].
    rewrite (O c) by (eapply nth_error_In; eauto).
    set (s1 := St (slots s) (turn s) (cache s) (fresh s) (accepts s) (conns s) (queues s)).
    unfold declare_queue. change (known s1 q) with (known s q). rewrite K. exists s1. split.
    - f_equal. unfold consume. change (lookup s1 q) with (lookup s q). rewrite L. apply andb_false_r.
    - auto. }
  destruct X as (s' & -> & K' & L' & O'). now apply IH.
Qed.

(** such a state is reached by one subscription and one deletion *)
Theorem C83_deleted_queue_reached : forall n q, 1 < n -> exclusive q = false ->
  let s := run (new_broker n []) [Subscribe q; DeleteQueue q] in
  known s q = true /\ lookup s q = None /\ (forall c, In c (slots s) -> is_open s c = true).
Proof.
  intros n q N X. destruct n as [|[|n]]; try lia. cbn zeta.
  assert (E: run (new_broker (S (S n)) []) [Subscribe q; DeleteQueue q]
    = St (seq 0 (S (S n))) (if Nat.leb (S (S n)) 2 then 0 else 2) [q] (S (S n)) true (seq 0 (S (S n))) []).
  { unfold run. cbn [fold_left step].
    replace (fst (subscribe (new_broker (S (S n)) []) q)) with
      (St (seq 0 (S (S n))) 1 [q] (S (S n)) true (seq 0 (S (S n))) [(q, None)]).
    - unfold delete_queue, get_connection. cbn -[Nat.leb seq]. unfold turn. cbn -[Nat.leb seq]. rewrite seq_length.
      cbn. rewrite String.eqb_refl. reflexivity.
    - unfold subscribe, get_connection. cbn. rewrite X. cbn. reflexivity. }
  rewrite E. split; [|split].
  - unfold known. cbn [cache existsb]. now rewrite String.eqb_refl.
  - reflexivity.
  - intros c I. apply is_open_in. exact I.
Qed.

(** C83, negative: an exclusive queue (cancellations of a worker, event streams) lives on one connection.  If other users
    of the broker take connections in between, the attempts can miss it every time. *)
Fixpoint interleaved (k : nat) (s : st) (q : string) (others : list act) : bool :=
  match k with
  | O => false
  | S k => let (s', ok) := subscribe s q in if ok then true else interleaved k (run s' others) q others
  end.

Theorem C83_others_in_between_refuted : forall k,
  let s := run (new_broker 3 []) [Subscribe "x-worker"] in
  interleaved k s "x-worker" [Use; Use] = false /\ snd (attempts 3 s "x-worker") = true.
Proof.
  intros k s. split; [|reflexivity].
  assert (E: subscribe s "x-worker" = (St [0;1;2] 2 ["x-worker"] 3 true [0;1;2] [("x-worker", Some 0)], false)) by reflexivity.
  assert (R: run (St [0;1;2] 2 ["x-worker"] 3 true [0;1;2] [("x-worker", Some 0)]) [Use; Use] = s) by reflexivity.
  induction k as [|k IH]; [reflexivity|]. cbn [interleaved]. rewrite E. now rewrite R.
Qed.

(** C83, negative: while the server refuses new connections (its limit is reached), a closed connection in the next slot
    makes every use fail, although other connections of the pool are open. *)
Theorem C83_one_closed_slot_refuted : forall l s, (forall a, In a l -> a = Use) ->
  accepts s = false -> (exists c, nth_error (slots s) (nxt s) = Some c /\ is_open s c = false) ->
  snd (get_connection (run s l)) = None.
Proof.
  intros l. induction l as [|a l IH]; intros s U A (c & N & O).
  - cbn. unfold get_connection. now rewrite N, O, A.
  - assert (a = Use) as -> by (apply U; now left). unfold run in *. cbn [fold_left step].
    apply IH.
    + intros b B. apply U. now right.
    + unfold get_connection. rewrite N, O, A. reflexivity.
    + exists c. unfold get_connection. rewrite N, O, A. cbn. auto.
Qed.

(** ** Shutdown *)

(** rabbitmq.go:606-624: close the connection in slot [i] (its exclusive queues go with it) *)
Definition close_slot (s : st) (i : nat) : st :=
  match nth_error (slots s) i with Some c => step s (Lost c) | None => s end.
(** rabbitmq.go:625-627 *)
Definition forget (s : st) : st := St [] (nxt s) (cache s) (fresh s) (accepts s) (conns s) (queues s).
(** rabbitmq.go:606-628 with other goroutines doing [between i] after the [i]-th connection has been closed *)
Definition shutdown (between : nat -> list act) (s : st) : st :=
  forget (fold_left (fun s i => run (close_slot s i) (between i)) (seq 0 (length (slots s))) s).

Lemma conns_step s a : (forall c, In c (conns s) -> In c (slots s)) -> (forall c, In c (conns (step s a)) -> In c (slots (step s a))).
Proof.
  intros H.
  assert (G: forall s1 oc, get_connection s = (s1, oc) -> forall c, In c (conns s1) -> In c (slots s1)).
  { intros s1 oc E c. unfold get_connection in E. destruct (nth_error (slots s) (nxt s)) as [x|] eqn:N; [|injection E as <- <-; auto].
    destruct (is_open s x) eqn:O; [|destruct (accepts s)]; injection E as <- <-; cbn; auto.
    intros [<-|I].
    - apply nth_error_In with (nxt s). apply upd_nth_same. apply nth_error_Some. congruence.
    - pose proof (proj2 (is_open_in s c) I) as OC. apply H, In_nth_error in I as (j & J). apply nth_error_In with j.
      rewrite upd_nth_other; [exact J|]. intros <-. congruence. }
  destruct a; cbn [step].
  - unfold subscribe. destruct (get_connection s) as [s1 [c|]] eqn:E; [|exact (G _ _ eq_refl)].
    assert (D: slots (fst (declare_queue s1 c q)) = slots s1 /\ conns (fst (declare_queue s1 c q)) = conns s1).
    { unfold declare_queue, server_declare. destruct (known s1 q); [auto|]. destruct (is_open s1 c); [|auto].
      destruct (lookup s1 q) as [[o|]|]; [destruct (Nat.eqb o c)|..]; auto. }
    destruct (declare_queue s1 c q) as [s2 []]; cbn in *; destruct D as [-> ->]; exact (G _ _ eq_refl).
  - destruct (get_connection s) as [s1 oc]. exact (G _ _ eq_refl).
  - unfold delete_queue. destruct (get_connection s) as [s1 [c|]]; exact (G _ _ eq_refl).
  - cbn. intros x I. apply filter_In in I as [I _]. auto.
  - intros x [].
  - exact H.
  - destruct (exclusive q); [exact H|]. destruct (lookup s q); exact H.
Qed.

Lemma conns_run l : forall s, (forall c, In c (conns s) -> In c (slots s)) -> (forall c, In c (conns (run s l)) -> In c (slots (run s l))).
Proof. induction l as [|a l IH]; intros s H; [exact H|]. apply (IH (step s a)). now apply conns_step. Qed.

Lemma close_all l : forall s, let s' := fold_left (fun s i => run (close_slot s i) []) l s in
  slots s' = slots s /\ forall c, In c (conns s') <-> In c (conns s) /\ forall i, In i l -> nth_error (slots s) i <> Some c.
Proof.
  induction l as [|i l IH]; intros s; cbn zeta; [cbn; split; [reflexivity|]; intros c; split; [intros; split; auto; intros _ []|tauto]|].
  cbn [fold_left]. change (run (close_slot s i) []) with (close_slot s i).
  specialize (IH (close_slot s i)). cbn zeta in IH. destruct IH as [E C].
  assert (S: slots (close_slot s i) = slots s) by (unfold close_slot; destruct (nth_error (slots s) i); reflexivity).
  split; [now rewrite E|]. intros c. rewrite C, S. unfold close_slot. destruct (nth_error (slots s) i) as [x|] eqn:N.
  - cbn [step without conns]. rewrite filter_In, negb_true_iff, Nat.eqb_neq. split.
    + intros [[I NE] A]. split; [exact I|]. intros j [<-|J]; [congruence|auto].
    + intros [I A]. split; [split; [exact I|]|].
      * intros ->. apply (A i); [now left|exact N].
      * intros j J. apply A. now right.
  - split; intros [I A]; (split; [exact I|]); intros j J.
    + destruct J as [<-|J]; [congruence|auto].
    + apply A. now right.
Qed.

(** After Shutdown, if nobody used the broker meanwhile, no connection is left and none is handed out again. *)
Theorem C83_shutdown_closes : forall n qs l more,
  let s := shutdown (fun _ => []) (run (new_broker n qs) l) in
  conns s = [] /\ conns (run s more) = [] /\ snd (get_connection (run s more)) = None.
Proof.
  intros n qs l more s.
  assert (C: conns s = []).
  { unfold s, shutdown. set (s0 := run (new_broker n qs) l).
    assert (H: forall c, In c (conns s0) -> In c (slots s0)) by (apply conns_run; auto).
    destruct (close_all (seq 0 (length (slots s0))) s0) as [E F]. cbn [forget conns].
    destruct (conns (fold_left _ _ s0)) as [|c k] eqn:Q; [reflexivity|]. exfalso.
    destruct (proj1 (F c)) as [I A]; [now left|]. apply H, In_nth_error in I as (i & I).
    apply (A i); [|exact I]. apply in_seq. split; [lia|]. cbn. apply nth_error_Some. congruence. }
  split; [exact C|].
  assert (X: forall more s, slots s = [] -> conns s = [] -> slots (run s more) = [] /\ conns (run s more) = []).
  { clear. induction more as [|a more IH]; intros s S C; [auto|]. apply (IH (step s a)).
    - apply length_zero_iff_nil. rewrite slots_length, S. reflexivity.
    - assert (G: get_connection s = (s, None)) by (unfold get_connection; rewrite S; destruct (nxt s); reflexivity).
      destruct a; cbn [step]; unfold subscribe, delete_queue; rewrite ?G; cbn; rewrite ?C; auto.
      destruct (exclusive q); [exact C|]. destruct (lookup s q); [exact C|reflexivity]. }
  destruct (X more s) as [X1 X2]; auto. split; [exact X2|].
  unfold get_connection. rewrite X1. destruct (nxt (run s more)); reflexivity.
Qed.

(** Negative: a message published while Shutdown closes the connections opens a new one that is never closed. *)
Theorem C83_shutdown_leaks_refuted : forall more,
  (forall c, ~ In (Lost c) more) -> (forall k, ~ In (Crash k) more) ->
  let s := shutdown (fun i => match i with 0 => [Use] | _ => [] end) (new_broker 3 []) in
  slots s = [] /\ In 3 (conns (run s more)).
Proof.
  intros more L C s. split; [reflexivity|].
  assert (X: forall more s, slots s = [] -> In 3 (conns s) -> (forall c, ~ In (Lost c) more) -> (forall k, ~ In (Crash k) more) -> In 3 (conns (run s more))).
  { clear. induction more as [|a more IH]; intros s S I NL NC; [exact I|]. apply (IH (step s a)).
    - apply length_zero_iff_nil. rewrite slots_length, S. reflexivity.
    - assert (G: get_connection s = (s, None)) by (unfold get_connection; rewrite S; destruct (nxt s); reflexivity).
      destruct a; cbn [step]; unfold subscribe, delete_queue; rewrite ?G; auto.
      + exfalso. apply (NL c). now left.
      + exfalso. apply (NC kept). now left.
      + destruct (exclusive q); [exact I|]. destruct (lookup s q); exact I.
    - intros c J. apply (NL c). now right.
    - intros k J. apply (NC k). now right. }
  apply X; auto. left. reflexivity.
Qed.

(** *** Examples *)
Example C83_after_a_crash :
  let l := [Subscribe "x-w"; Subscribe "pending"; Use; Crash []; Accepting false; Use; Accepting true; Subscribe "pending"; Lost 4] in
  initial 3 [("default", None)] /\ ~ In (DeleteQueue "x-w") l /\ accepts (run (new_broker 3 [("default", None)]) l) = true /\
  lookup (run (new_broker 3 [("default", None)]) l) "x-w" = None.
Proof.
  split; [|split; [|split]].
  - split; [lia|]. split; repeat constructor; intros [].
  - cbn. intuition discriminate.
  - reflexivity.
  - reflexivity.
Qed.

Example C83_one_closed_slot_reached :
  let s := run (new_broker 3 []) [Accepting false; Lost 0] in
  accepts s = false /\ nth_error (slots s) (nxt s) = Some 0 /\ is_open s 0 = false /\ is_open s 1 = true.
Proof. repeat split. Qed.

Print Assumptions C83_comes_back.
Print Assumptions C83_success_is_real.
Print Assumptions C83_connections_are_open.
Print Assumptions C83_deleted_queue_refuted.
Print Assumptions C83_deleted_queue_reached.
Print Assumptions C83_others_in_between_refuted.
Print Assumptions C83_one_closed_slot_refuted.
Print Assumptions C83_shutdown_closes.
Print Assumptions C83_shutdown_leaks_refuted.
