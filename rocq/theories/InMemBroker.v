(** C38: the in-memory broker (broker/inmemory.go): queues, for every interleaving of concurrent calls; and topics.
    RabbitMQ is not modelled here; the coordinator's machine (System.v) assumes of a broker only that it may deliver any
    published message, any number of times. *)
From Coq Require Import List Arith Bool Lia.
Import ListNotations.

Section Queues.
Variable name : Type.
Variable name_dec : forall a b : name, {a = b} + {a <> b}.
Variable val : Type.

(* ------------------------------------------------------------------ *)
(** * State *)
Notation ptr := nat.
Notation qid := nat.
Notation sub := nat.
(** What is put in a channel: a clone made when publishing (tasks, jobs, heartbeats: inmemory.go:148-151, 213-215,
    227-229) or the caller's own pointer (log parts and progress: 316-318, 331-333) *)
Inductive payload := Clone (v : val) | Shared (p : ptr).
(** A message.  Besides its payload it carries, for stating the properties: which call of publish it comes from, the
    name given and the contents the caller's object had then *)
Record msg := mkMsg { m_call : nat; m_name : name; m_body : payload; m_was : val }.
(** A queue object (inmemory.go:76-91): its name, channel and subscribers; and, for the properties, everything ever
    sent into the channel and everything taken out: by whom, and the contents seen *)
Record obj := mkObj { o_name : name; o_chan : list msg; o_subs : list sub; o_sent : list msg; o_taken : list (sub * msg * val) }.
(** What a goroutine inside publish (241-249) or subscribe (163-172) does next *)
Inductive op :=
| PubGet (m : msg)              (* queues.Get *)
| PubSet (m : msg)              (* newQueue; queues.Set *)
| PubSend (q : qid) (m : msg)   (* q.ch <- m *)
| SubGet (n : name) (s : sub)
| SubSet (n : name) (s : sub)
| SubAdd (q : qid) (s : sub).   (* q.subs = append(...); go ... *)
Inductive status := Idle | Busy | Dead.
Record state := mkState {
  st_heap : ptr -> val;
  st_map : name -> option qid;
  st_obj : qid -> option obj; st_nq : nat;
  st_ops : list op; st_calls : nat; st_nsub : nat;
  st_sub : sub -> status; st_term : sub -> bool }.

Definition CAP : nat := 1000.
Definition upd {A} (f : nat -> A) (i : nat) (x : A) : nat -> A := fun j => if Nat.eqb j i then x else f j.
Definition updn {A} (f : name -> A) (i : name) (x : A) : name -> A := fun j => if name_dec j i then x else f j.
Definition contents (h : ptr -> val) (b : payload) : val := match b with Clone v => v | Shared p => h p end.

Definition set_ops (st : state) (l : list op) : state :=
  mkState (st_heap st) (st_map st) (st_obj st) (st_nq st) l (st_calls st) (st_nsub st) (st_sub st) (st_term st).
Definition set_obj (st : state) (q : qid) (o : obj) : state :=
  mkState (st_heap st) (st_map st) (upd (st_obj st) q (Some o)) (st_nq st) (st_ops st) (st_calls st) (st_nsub st) (st_sub st) (st_term st).
Definition set_map (st : state) (m : name -> option qid) : state :=
  mkState (st_heap st) m (st_obj st) (st_nq st) (st_ops st) (st_calls st) (st_nsub st) (st_sub st) (st_term st).
Definition set_sub (st : state) (s : sub) (x : status) : state :=
  mkState (st_heap st) (st_map st) (st_obj st) (st_nq st) (st_ops st) (st_calls st) (st_nsub st) (upd (st_sub st) s x) (st_term st).
(** newQueue and queues.Set.  (Allocating the object has no effect another goroutine sees, so the two are one step.) *)
Definition create (st : state) (n : name) : state :=
  mkState (st_heap st) (updn (st_map st) n (Some (st_nq st))) (upd (st_obj st) (st_nq st) (Some (mkObj n [] [] [] [])))
    (S (st_nq st)) (st_ops st) (st_calls st) (st_nsub st) (st_sub st) (st_term st).

(* ------------------------------------------------------------------ *)
(** * Steps *)
Inductive label :=
| LPublish (shared : bool) (p : ptr) (n : name) | LSubscribe (n : name)
| LOp | LTake (q : qid) (s : sub) | LReturn (s : sub)
| LChange (p : ptr) (v : val) | LDelete (n : name) | LTerminate (s : sub) | LExit (s : sub).

Inductive step : state -> label -> state -> Prop :=
(** a call of one of the Publish methods; the clone is made first *)
| s_publish : forall st shared p n,
  step st (LPublish shared p n)
    (mkState (st_heap st) (st_map st) (st_obj st) (st_nq st)
      (st_ops st ++ [PubGet (mkMsg (st_calls st) n (if shared then Shared p else Clone (st_heap st p)) (st_heap st p))])
      (S (st_calls st)) (st_nsub st) (st_sub st) (st_term st))
| s_subscribe : forall st n,
  step st (LSubscribe n)
    (mkState (st_heap st) (st_map st) (st_obj st) (st_nq st) (st_ops st ++ [SubGet n (st_nsub st)])
      (st_calls st) (S (st_nsub st)) (st_sub st) (st_term st))
(** inmemory.go:242: found *)
| s_get_found : forall st a b m q, st_ops st = a ++ PubGet m :: b -> st_map st (m_name m) = Some q ->
  step st LOp (set_ops st (a ++ PubSend q m :: b))
(** not found *)
| s_get_none : forall st a b m, st_ops st = a ++ PubGet m :: b -> st_map st (m_name m) = None ->
  step st LOp (set_ops st (a ++ PubSet m :: b))
(** 244-245 *)
| s_set : forall st a b m, st_ops st = a ++ PubSet m :: b ->
  step st LOp (set_ops (create st (m_name m)) (a ++ PubSend (st_nq st) m :: b))
(** 98-100: blocks while the channel is full *)
| s_send : forall st a b q m o, st_ops st = a ++ PubSend q m :: b -> st_obj st q = Some o -> length (o_chan o) < CAP ->
  step st LOp (set_ops (set_obj st q (mkObj (o_name o) (o_chan o ++ [m]) (o_subs o) (o_sent o ++ [m]) (o_taken o))) (a ++ b))
| s_sget_found : forall st a b n s q, st_ops st = a ++ SubGet n s :: b -> st_map st n = Some q ->
  step st LOp (set_ops st (a ++ SubAdd q s :: b))
| s_sget_none : forall st a b n s, st_ops st = a ++ SubGet n s :: b -> st_map st n = None ->
  step st LOp (set_ops st (a ++ SubSet n s :: b))
| s_sset : forall st a b n s, st_ops st = a ++ SubSet n s :: b ->
  step st LOp (set_ops (create st n) (a ++ SubAdd (st_nq st) s :: b))
(** 117-126: the subscriber's goroutine starts *)
| s_sadd : forall st a b q s o, st_ops st = a ++ SubAdd q s :: b -> st_obj st q = Some o ->
  step st LOp (set_sub (set_ops (set_obj st q (mkObj (o_name o) (o_chan o) (o_subs o ++ [s]) (o_sent o) (o_taken o))) (a ++ b)) s Idle)
(** 131-138: an idle subscriber takes the oldest message and calls its handler.  (Contents behind a shared pointer are
    read by the handler at any time from here on; here they are read now.) *)
| s_take : forall st q s o m r, st_obj st q = Some o -> In s (o_subs o) -> st_sub st s = Idle -> o_chan o = m :: r ->
  step st (LTake q s) (set_sub (set_obj st q (mkObj (o_name o) r (o_subs o) (o_sent o) (o_taken o ++ [(s, m, contents (st_heap st) (m_body m))]))) s Busy)
(** the handler returns, with an error or not: either way the message is gone *)
| s_return : forall st s, st_sub st s = Busy -> step st (LReturn s) (set_sub st s Idle)
(** a publisher changes its object *)
| s_change : forall st p v, step st (LChange p v)
    (mkState (upd (st_heap st) p v) (st_map st) (st_obj st) (st_nq st) (st_ops st) (st_calls st) (st_nsub st) (st_sub st) (st_term st))
(** 199-202 DeleteQueue *)
| s_delete : forall st n, step st (LDelete n) (set_map st (updn (st_map st) n None))
(** 106-115, 128-130: Shutdown closes the terminate channel of a subscriber, whose goroutine ends when it is not in a
    handler *)
| s_terminate : forall st s, step st (LTerminate s)
    (mkState (st_heap st) (st_map st) (st_obj st) (st_nq st) (st_ops st) (st_calls st) (st_nsub st) (st_sub st) (upd (st_term st) s true))
| s_exit : forall st s, st_sub st s = Idle -> st_term st s = true -> step st (LExit s) (set_sub st s Dead).

Inductive exec : state -> list label -> state -> Prop :=
| e_nil : forall st, exec st [] st
| e_cons : forall st l st1 tr st2, step st l st1 -> exec st1 tr st2 -> exec st (l :: tr) st2.
(** NewInMemoryBroker (inmemory.go:140-146) *)
Definition fresh (st : state) : Prop :=
  (forall n, st_map st n = None) /\ (forall q, st_obj st q = None) /\ st_ops st = [] /\ st_calls st = 0 /\
  st_nq st = 0 /\ st_nsub st = 0 /\ (forall s, st_sub st s = Dead).
Definition reachable (st : state) : Prop := exists st0 tr, fresh st0 /\ exec st0 tr st.

(* ------------------------------------------------------------------ *)
(** * Invariant *)
Definition op_msg (x : op) : list msg := match x with PubGet m | PubSet m | PubSend _ m => [m] | _ => [] end.
Definition op_sub (x : op) : list sub := match x with SubGet _ s | SubSet _ s | SubAdd _ s => [s] | _ => [] end.
Definition pending (st : state) : list msg := flat_map op_msg (st_ops st).
Definition pending_subs (st : state) : list sub := flat_map op_sub (st_ops st).
Definition taken (o : obj) : list msg := map (fun x => snd (fst x)) (o_taken o).
Definition sent_calls (st : state) (q : qid) : list nat := match st_obj st q with Some o => map m_call (o_sent o) | None => [] end.
Definition subs_of (st : state) (q : qid) : list sub := match st_obj st q with Some o => o_subs o | None => [] end.

Definition op_ok (st : state) (x : op) : Prop :=
  match x with
  | PubSend q m => exists o, st_obj st q = Some o /\ o_name o = m_name m
  | SubAdd q _ => exists o, st_obj st q = Some o
  | _ => True end.
Definition body_ok (m : msg) : Prop := match m_body m with Clone v => v = m_was m | Shared _ => True end.

Record inv (st : state) : Prop := {
  i_order : forall q o, st_obj st q = Some o -> o_sent o = taken o ++ o_chan o;
  i_name : forall q o m, st_obj st q = Some o -> In m (o_sent o) -> m_name m = o_name o;
  i_cap : forall q o, st_obj st q = Some o -> length (o_chan o) <= CAP;
  i_alloc : forall q, st_nq st <= q -> st_obj st q = None;
  i_map : forall n q, st_map st n = Some q -> exists o, st_obj st q = Some o /\ o_name o = n;
  i_ops : Forall (op_ok st) (st_ops st);
  i_calls : NoDup (map m_call (pending st)) /\ (forall m, In m (pending st) -> m_call m < st_calls st);
  i_sent : forall q, NoDup (sent_calls st q) /\ forall c, In c (sent_calls st q) -> c < st_calls st /\ ~ In c (map m_call (pending st));
  i_disj : forall q q' c, q <> q' -> In c (sent_calls st q) -> ~ In c (sent_calls st q');
  i_body : (forall m, In m (pending st) -> body_ok m) /\ (forall q o m, st_obj st q = Some o -> In m (o_sent o) -> body_ok m);
  i_seen : forall q o s m v, st_obj st q = Some o -> In (s, m, v) (o_taken o) -> forall w, m_body m = Clone w -> v = w;
  i_psubs : NoDup (pending_subs st) /\ (forall s, In s (pending_subs st) -> s < st_nsub st /\ st_sub st s = Dead);
  i_subs : forall q, NoDup (subs_of st q) /\ forall s, In s (subs_of st q) -> s < st_nsub st /\ ~ In s (pending_subs st);
  i_sdisj : forall q q' s, q <> q' -> In s (subs_of st q) -> ~ In s (subs_of st q');
  i_dead : forall s, st_nsub st <= s -> st_sub st s = Dead }.

Lemma inv_fresh : forall st, fresh st -> inv st.
Proof.
  intros st (H1 & H2 & H3 & H4 & H5 & H6 & H7).
  assert (P : pending st = []) by (unfold pending; now rewrite H3).
  assert (P' : pending_subs st = []) by (unfold pending_subs; now rewrite H3).
  constructor; try (intros; rewrite H2 in *; discriminate); try (intros; rewrite H1 in *; discriminate); auto.
  - rewrite H3. constructor.
  - rewrite P. split; [constructor|intros m []].
  - intros q. unfold sent_calls. rewrite H2. split; [constructor|intros c []].
  - intros q q' c _. unfold sent_calls. rewrite H2. intros [].
  - rewrite P. split; [intros m []|intros; rewrite H2 in *; discriminate].
  - rewrite P'. split; [constructor|intros m []].
  - intros q. unfold subs_of. rewrite H2. split; [constructor|intros c []].
  - intros q q' c _. unfold subs_of. rewrite H2. intros [].
Qed.

Lemma upd_same : forall A (f : nat -> A) i x, upd f i x i = x.
Proof. intros. unfold upd. now rewrite Nat.eqb_refl. Qed.
Lemma upd_other : forall A (f : nat -> A) i j x, j <> i -> upd f i x j = f j.
Proof. intros. unfold upd. destruct (Nat.eqb_spec j i); congruence. Qed.
Lemma updn_same : forall A (f : name -> A) i x, updn f i x i = x.
Proof. intros. unfold updn. destruct (name_dec i i); congruence. Qed.
Lemma updn_other : forall A (f : name -> A) i j x, j <> i -> updn f i x j = f j.
Proof. intros. unfold updn. destruct (name_dec j i); congruence. Qed.

Lemma flat_map_mid : forall A B (f : A -> list B) a x b, flat_map f (a ++ x :: b) = flat_map f a ++ f x ++ flat_map f b.
Proof. intros. rewrite flat_map_app. reflexivity. Qed.
Lemma NoDup_snoc : forall A (l : list A) x, NoDup l -> ~ In x l -> NoDup (l ++ [x]).
Proof. intros A l x H N. apply NoDup_rev in H. rewrite <- (rev_involutive (l ++ [x])). apply NoDup_rev. rewrite rev_app_distr. cbn. constructor; [now rewrite <- in_rev|exact H]. Qed.

(** replacing the operation of one goroutine by one with the same message and subscriber *)
Lemma inv_replace : forall st a b x y, inv st -> st_ops st = a ++ x :: b -> op_msg x = op_msg y -> op_sub x = op_sub y -> op_ok st y ->
  inv (set_ops st (a ++ y :: b)).
Proof.
  intros st a b x y I E Em Es Ho.
  assert (P : pending (set_ops st (a ++ y :: b)) = pending st) by (unfold pending; cbn; rewrite E, !flat_map_mid, Em; reflexivity).
  assert (P' : pending_subs (set_ops st (a ++ y :: b)) = pending_subs st) by (unfold pending_subs; cbn; rewrite E, !flat_map_mid, Es; reflexivity).
  destruct I. constructor; rewrite ?P, ?P'; try assumption.
  - cbn. rewrite E in i_ops0. apply Forall_app in i_ops0 as [F1 F2]. inversion F2; subst. apply Forall_app. split; [exact F1|]. now constructor.
Qed.
Lemma inv_create : forall st n, inv st -> inv (create st n).
Proof.
  intros st n I. destruct I.
  assert (N : st_obj st (st_nq st) = None) by (apply i_alloc0; lia).
  assert (L : forall q o, st_obj st q = Some o -> st_obj (create st n) q = Some o).
  { intros q o H. cbn. rewrite upd_other; [exact H|]. intros ->. congruence. }
  assert (C : forall q o, st_obj (create st n) q = Some o -> (q = st_nq st /\ o = mkObj n [] [] [] []) \/ st_obj st q = Some o).
  { intros q o H. cbn in H. destruct (Nat.eq_dec q (st_nq st)) as [->|D]; [rewrite upd_same in H; injection H as <-; auto|rewrite upd_other in H; auto]. }
  assert (SC : forall q, sent_calls (create st n) q = sent_calls st q).
  { intros q. unfold sent_calls. cbn. destruct (Nat.eq_dec q (st_nq st)) as [->|D]; [rewrite upd_same, N; reflexivity|now rewrite upd_other]. }
  assert (SS : forall q, subs_of (create st n) q = subs_of st q).
  { intros q. unfold subs_of. cbn. destruct (Nat.eq_dec q (st_nq st)) as [->|D]; [rewrite upd_same, N; reflexivity|now rewrite upd_other]. }
  assert (P : pending (create st n) = pending st) by reflexivity.
  assert (P' : pending_subs (create st n) = pending_subs st) by reflexivity.
  constructor; rewrite ?P, ?P'.
  - intros q o H. destruct (C _ _ H) as [[-> ->]|H']; [reflexivity|eauto].
  - intros q o m H Hm. destruct (C _ _ H) as [[-> ->]|H']; [destruct Hm|eauto].
  - intros q o H. destruct (C _ _ H) as [[-> ->]|H']; [cbn; lia|eauto].
  - intros q H. cbn in *. rewrite upd_other by lia. apply i_alloc0. lia.
  - intros n' q H. cbn in H. destruct (name_dec n' n) as [->|D].
    + rewrite updn_same in H. injection H as <-. exists (mkObj n [] [] [] []). split; [cbn; apply upd_same|reflexivity].
    + rewrite updn_other in H by assumption. destruct (i_map0 _ _ H) as (o & Ho & Hn). exists o. split; [now apply L|exact Hn].
  - eapply Forall_impl; [|exact i_ops0]. intros [m|m|q m|m s|m s|q s]; cbn [op_ok]; auto.
    + intros (o & Ho & Hn). exists o. split; [now apply L|exact Hn].
    + intros (o & Ho). exists o. now apply L.
  - exact i_calls0.
  - intros q. rewrite SC. apply i_sent0.
  - intros q q' c. rewrite !SC. apply i_disj0.
  - split; [apply i_body0|]. intros q o m H Hm. destruct (C _ _ H) as [[-> ->]|H']; [destruct Hm|]. destruct i_body0 as [_ B]. eauto.
  - intros q o s m v H Hi. destruct (C _ _ H) as [[-> ->]|H']; [destruct Hi|eauto].
  - exact i_psubs0.
  - intros q. rewrite SS. apply i_subs0.
  - intros q q' c. rewrite !SS. apply i_sdisj0.
  - exact i_dead0.
Qed.
(** changing one object *)
Lemma obj_cases : forall st q o' q1 o1, st_obj (set_obj st q o') q1 = Some o1 -> (q1 = q /\ o1 = o') \/ (q1 <> q /\ st_obj st q1 = Some o1).
Proof.
  intros st q o' q1 o1 H. cbn in H. destruct (Nat.eq_dec q1 q) as [->|D]; [rewrite upd_same in H; injection H as <-; auto|rewrite upd_other in H; auto].
Qed.
Lemma op_ok_set_obj : forall st q o o' x, st_obj st q = Some o -> o_name o' = o_name o -> op_ok st x -> op_ok (set_obj st q o') x.
Proof.
  intros st q o o' x H Hn. destruct x as [m|m|q1 m|m s|m s|q1 s]; cbn [op_ok]; auto.
  - intros (o1 & H1 & H2). destruct (Nat.eq_dec q1 q) as [->|D].
    + exists o'. cbn. rewrite upd_same. split; [reflexivity|]. congruence.
    + exists o1. cbn. rewrite upd_other by assumption. auto.
  - intros (o1 & H1). destruct (Nat.eq_dec q1 q) as [->|D]; [exists o'; cbn; now rewrite upd_same|exists o1; cbn; now rewrite upd_other].
Qed.
Lemma map_set_obj : forall st q o o', st_obj st q = Some o -> o_name o' = o_name o ->
  (forall n q, st_map st n = Some q -> exists o, st_obj st q = Some o /\ o_name o = n) ->
  forall n q1, st_map st n = Some q1 -> exists o1, st_obj (set_obj st q o') q1 = Some o1 /\ o_name o1 = n.
Proof.
  intros st q o o' H Hn M n q1 H1. destruct (M _ _ H1) as (o1 & A & B). destruct (Nat.eq_dec q1 q) as [->|D].
  - exists o'. cbn. rewrite upd_same. split; [reflexivity|congruence].
  - exists o1. cbn. now rewrite upd_other.
Qed.

Theorem inv_step : forall st l st', inv st -> step st l st' -> inv st'.
Proof.
  intros st l st' I H. destruct H.
  - (* publish *)
    set (m := mkMsg (st_calls st) n (if shared then Shared p else Clone (st_heap st p)) (st_heap st p)).
    destruct I. match goal with |- inv ?s => set (st' := s) end.
    assert (P : pending st' = pending st ++ [m]) by (unfold pending, st'; cbn; rewrite flat_map_app; reflexivity).
    assert (P' : pending_subs st' = pending_subs st) by (unfold pending_subs, st'; cbn; rewrite flat_map_app; cbn; apply app_nil_r).
    constructor; rewrite ?P, ?P'; try assumption.
    + cbn. apply Forall_app. split; [exact i_ops0|]. repeat constructor.
    + destruct i_calls0 as [A B]. split.
      * rewrite map_app. cbn. apply NoDup_snoc; [exact A|]. intros Hi. apply in_map_iff in Hi as (m' & E & Hi). specialize (B _ Hi). lia.
      * intros m' Hi. apply in_app_or in Hi as [Hi|[<-|[]]]; cbn; [specialize (B _ Hi); lia|lia].
    + intros q. destruct (i_sent0 q) as [A B]. split; [exact A|]. intros c Hc. destruct (B c Hc) as [B1 B2]. split; [cbn; lia|].
      rewrite map_app. intros Hi. apply in_app_or in Hi as [Hi|[E|[]]]; [auto|]. cbn in E. lia.
    + destruct i_body0 as [A B]. split; [|exact B]. intros m' Hi. apply in_app_or in Hi as [Hi|[<-|[]]]; [auto|]. unfold body_ok, m. cbn. destruct shared; [exact Logic.I|reflexivity].
  - (* subscribe *)
    destruct I. match goal with |- inv ?s => set (st' := s) end.
    assert (P : pending st' = pending st) by (unfold pending, st'; cbn; rewrite flat_map_app; cbn; apply app_nil_r).
    assert (P' : pending_subs st' = pending_subs st ++ [st_nsub st]) by (unfold pending_subs, st'; cbn; rewrite flat_map_app; reflexivity).
    constructor; rewrite ?P, ?P'; try assumption.
    + cbn. apply Forall_app. split; [exact i_ops0|]. repeat constructor.
    + destruct i_psubs0 as [A B]. split.
      * apply NoDup_snoc; [exact A|]. intros Hi. destruct (B _ Hi). lia.
      * intros s Hi. apply in_app_or in Hi as [Hi|[<-|[]]]; cbn; [destruct (B _ Hi); split; [lia|assumption]|]. split; [lia|]. apply i_dead0. lia.
    + intros q. destruct (i_subs0 q) as [A B]. split; [exact A|]. intros s Hs. destruct (B _ Hs) as [B1 B2]. split; [cbn; lia|].
      intros Hi. apply in_app_or in Hi as [Hi|[E|[]]]; [auto|lia].
    + cbn. intros s Hs. apply i_dead0. lia.
  - eapply inv_replace; eauto. destruct I. destruct (i_map0 _ _ H0) as (o & A & B). exists o. auto.
  - eapply inv_replace; eauto. exact Logic.I.
  - eapply inv_replace with (x := PubSet m); [now apply inv_create|exact H|reflexivity|reflexivity|].
    cbn [op_ok]. eexists. split; [cbn; apply upd_same|reflexivity].
  - (* send *)
    destruct I. match goal with |- inv (set_ops (set_obj _ _ ?x) _) => set (o' := x) end.
    assert (F := i_ops0). rewrite H in F. apply Forall_app in F as [F1 F2]. inversion F2 as [|x l Fx F3]; subst x l.
    cbn [op_ok] in Fx. destruct Fx as (o0 & E0 & En). rewrite H0 in E0. injection E0 as <-.
    assert (P0 : pending st = flat_map op_msg a ++ m :: flat_map op_msg b) by (unfold pending; rewrite H, flat_map_mid; reflexivity).
    assert (P : pending (set_ops (set_obj st q o') (a ++ b)) = flat_map op_msg a ++ flat_map op_msg b) by (unfold pending; cbn; apply flat_map_app).
    assert (P' : pending_subs (set_ops (set_obj st q o') (a ++ b)) = pending_subs st).
    { unfold pending_subs; cbn. rewrite H, flat_map_mid, flat_map_app. reflexivity. }
    rewrite P0, map_app in i_calls0. cbn in i_calls0. destruct i_calls0 as [C1 C2].
    pose proof (NoDup_remove_1 _ _ _ C1) as C3. pose proof (NoDup_remove_2 _ _ _ C1) as C4. rewrite <- map_app in C3, C4.
    assert (SC : forall q1, sent_calls (set_ops (set_obj st q o') (a ++ b)) q1 = if Nat.eqb q1 q then sent_calls st q ++ [m_call m] else sent_calls st q1).
    { intros q1. unfold sent_calls. cbn. unfold upd. destruct (Nat.eqb_spec q1 q) as [->|D]; [|reflexivity]. rewrite H0. cbn. now rewrite map_app. }
    assert (SS : forall q1, subs_of (set_ops (set_obj st q o') (a ++ b)) q1 = subs_of st q1).
    { intros q1. unfold subs_of. cbn. unfold upd. destruct (Nat.eqb_spec q1 q) as [->|D]; [|reflexivity]. now rewrite H0. }
    assert (NS : forall q1, ~ In (m_call m) (sent_calls st q1)).
    { intros q1 Hi. destruct (i_sent0 q1) as [_ B]. destruct (B _ Hi) as [_ B2]. apply B2. rewrite P0. apply in_map. apply in_or_app. right. now left. }
    constructor; rewrite ?P, ?P'.
    + intros q1 o1 Ho. destruct (obj_cases _ _ _ _ _ Ho) as [[-> ->]|[_ Ho']]; [|eauto]. unfold taken, o'. cbn. rewrite (i_order0 _ _ H0). unfold taken. now rewrite app_assoc.
    + intros q1 o1 m1 Ho Hm. destruct (obj_cases _ _ _ _ _ Ho) as [[-> ->]|[_ Ho']]; [|eauto]. cbn in *. apply in_app_or in Hm as [Hm|[<-|[]]]; [eauto|congruence].
    + intros q1 o1 Ho. destruct (obj_cases _ _ _ _ _ Ho) as [[-> ->]|[_ Ho']]; [|eauto]. cbn. rewrite app_length. cbn. unfold CAP in *. lia.
    + intros q1 Hq. cbn. rewrite upd_other; [now apply i_alloc0|]. intros ->. cbn in Hq. rewrite i_alloc0 in H0 by assumption. discriminate.
    + cbn. eapply map_set_obj; eauto.
    + cbn. apply Forall_app. split; [eapply Forall_impl; [|exact F1]|eapply Forall_impl; [|exact F3]]; intros x Hx;
        (eapply (op_ok_set_obj st q o o' x) in Hx; [|exact H0|reflexivity]; exact Hx).
    + split; [exact C3|]. intros m1 Hi. cbn. apply C2. rewrite ?P0. apply in_app_or in Hi as [Hi|Hi]; apply in_or_app; [now left|right; now right].
    + intros q1. rewrite SC. destruct (i_sent0 q1) as [A B]. destruct (Nat.eqb_spec q1 q) as [->|D].
      * split; [apply NoDup_snoc; [exact A|apply NS]|]. intros c Hc. apply in_app_or in Hc as [Hc|[<-|[]]].
        -- destruct (B _ Hc) as [B1 B2]. split; [exact B1|]. intros Hi. apply B2. rewrite P0. rewrite map_app in *. cbn. apply in_app_or in Hi as [Hi|Hi]; apply in_or_app; [now left|right; now right].
        -- split; [|exact C4]. cbn. apply C2. rewrite ?P0. apply in_or_app. right. now left.
      * split; [exact A|]. intros c Hc. destruct (B _ Hc) as [B1 B2]. split; [exact B1|]. intros Hi. apply B2. rewrite P0. rewrite map_app in *. cbn. apply in_app_or in Hi as [Hi|Hi]; apply in_or_app; [now left|right; now right].
    + intros q1 q2 c Hd. rewrite !SC. destruct (Nat.eqb_spec q1 q) as [->|D1], (Nat.eqb_spec q2 q) as [->|D2]; try congruence; intros Hc Hc'.
      * apply in_app_or in Hc as [Hc|[<-|[]]]; [|now apply (NS q2)]. now apply (i_disj0 q q2 c).
      * apply in_app_or in Hc' as [Hc'|[<-|[]]]; [|now apply (NS q1)]. now apply (i_disj0 q1 q c).
      * now apply (i_disj0 q1 q2 c).
    + destruct i_body0 as [B1 B2]. split.
      * intros m1 Hi. apply B1. rewrite P0. apply in_app_or in Hi as [Hi|Hi]; apply in_or_app; [now left|right; now right].
      * intros q1 o1 m1 Ho Hm. destruct (obj_cases _ _ _ _ _ Ho) as [[-> ->]|[_ Ho']]; [|eauto]. cbn in Hm. apply in_app_or in Hm as [Hm|[<-|[]]]; [eauto|].
        apply B1. rewrite P0. apply in_or_app. right. now left.
    + intros q1 o1 s m1 v Ho Hi. destruct (obj_cases _ _ _ _ _ Ho) as [[-> ->]|[_ Ho']]; [|eauto]. cbn in Hi. eauto.
    + exact i_psubs0.
    + intros q1. rewrite SS. apply i_subs0.
    + intros q1 q2 s. rewrite !SS. apply i_sdisj0.
    + exact i_dead0.
  - eapply inv_replace; eauto. destruct I. destruct (i_map0 _ _ H0) as (o & A & B). exists o. auto.
  - eapply inv_replace; eauto. exact Logic.I.
  - eapply inv_replace with (x := SubSet n s); [now apply inv_create|exact H|reflexivity|reflexivity|].
    cbn [op_ok]. eexists. cbn. apply upd_same.
  - (* add subscriber *)
    destruct I. match goal with |- inv (set_sub (set_ops (set_obj _ _ ?x) _) _ _) => set (o' := x) end.
    set (st' := set_sub (set_ops (set_obj st q o') (a ++ b)) s Idle).
    assert (F := i_ops0). rewrite H in F. apply Forall_app in F as [F1 F2]. inversion F2 as [|x l Fx F3]; subst x l.
    assert (P : pending st' = pending st) by (unfold pending, st'; cbn; rewrite H, flat_map_mid, flat_map_app; reflexivity).
    assert (P0 : pending_subs st = flat_map op_sub a ++ s :: flat_map op_sub b) by (unfold pending_subs; rewrite H, flat_map_mid; reflexivity).
    assert (P' : pending_subs st' = flat_map op_sub a ++ flat_map op_sub b) by (unfold pending_subs, st'; cbn; apply flat_map_app).
    rewrite P0 in i_psubs0. destruct i_psubs0 as [C1 C2]. pose proof (NoDup_remove_1 _ _ _ C1) as C3. pose proof (NoDup_remove_2 _ _ _ C1) as C4.
    assert (SC : forall q1, sent_calls st' q1 = sent_calls st q1).
    { intros q1. unfold sent_calls, st'. cbn. unfold upd. destruct (Nat.eqb_spec q1 q) as [->|D]; [|reflexivity]. now rewrite H0. }
    assert (SS : forall q1, subs_of st' q1 = if Nat.eqb q1 q then subs_of st q ++ [s] else subs_of st q1).
    { intros q1. unfold subs_of, st'. cbn. unfold upd. destruct (Nat.eqb_spec q1 q) as [->|D]; [|reflexivity]. now rewrite H0. }
    assert (NS : forall q1, ~ In s (subs_of st q1)).
    { intros q1 Hi. destruct (i_subs0 q1) as [_ B]. destruct (B _ Hi) as [_ B2]. apply B2. rewrite P0. apply in_or_app. right. now left. }
    constructor; rewrite ?P, ?P'.
    + intros q1 o1 Ho. destruct (obj_cases st q o' q1 o1 Ho) as [[-> ->]|[_ Ho']]; [|eauto]. apply (i_order0 _ _ H0).
    + intros q1 o1 m1 Ho Hm. destruct (obj_cases st q o' q1 o1 Ho) as [[-> ->]|[_ Ho']]; [|eauto]. cbn in *. eauto.
    + intros q1 o1 Ho. destruct (obj_cases st q o' q1 o1 Ho) as [[-> ->]|[_ Ho']]; [|eauto]. cbn. eauto.
    + intros q1 Hq. cbn. rewrite upd_other; [now apply i_alloc0|]. intros ->. cbn in Hq. rewrite i_alloc0 in H0 by assumption. discriminate.
    + cbn. eapply map_set_obj; eauto.
    + cbn. apply Forall_app. split; [eapply Forall_impl; [|exact F1]|eapply Forall_impl; [|exact F3]]; intros x Hx;
        (eapply (op_ok_set_obj st q o o' x) in Hx; [|exact H0|reflexivity]; exact Hx).
    + exact i_calls0.
    + intros q1. rewrite SC. apply i_sent0.
    + intros q1 q2 c. rewrite !SC. apply i_disj0.
    + destruct i_body0 as [B1 B2]. split; [exact B1|]. intros q1 o1 m1 Ho Hm. destruct (obj_cases st q o' q1 o1 Ho) as [[-> ->]|[_ Ho']]; [|eauto]. cbn in Hm. eauto.
    + intros q1 o1 s1 m1 v Ho Hi. destruct (obj_cases st q o' q1 o1 Ho) as [[-> ->]|[_ Ho']]; [|eauto]. cbn in Hi. eauto.
    + split; [exact C3|]. intros s1 Hi. assert (Hi' : In s1 (flat_map op_sub a ++ s :: flat_map op_sub b)).
      { apply in_app_or in Hi as [Hi|Hi]; apply in_or_app; [now left|right; now right]. }
      rewrite ?P0 in C2. destruct (C2 _ Hi') as [D1 D2]. split; [exact D1|]. cbn. rewrite upd_other; [exact D2|]. intros ->. contradiction.
    + intros q1. rewrite SS. destruct (i_subs0 q1) as [A B]. rewrite P0 in B. destruct (Nat.eqb_spec q1 q) as [->|D].
      * split; [apply NoDup_snoc; [exact A|apply NS]|]. intros c Hc. apply in_app_or in Hc as [Hc|[<-|[]]].
        -- destruct (B _ Hc) as [B1 B2]. split; [exact B1|]. intros Hi. apply B2. apply in_app_or in Hi as [Hi|Hi]; apply in_or_app; [now left|right; now right].
        -- split; [|exact C4]. rewrite ?P0 in C2. apply C2. apply in_or_app. right. now left.
      * split; [exact A|]. intros c Hc. destruct (B _ Hc) as [B1 B2]. split; [exact B1|]. intros Hi. apply B2. apply in_app_or in Hi as [Hi|Hi]; apply in_or_app; [now left|right; now right].
    + intros q1 q2 c Hd. rewrite !SS. destruct (Nat.eqb_spec q1 q) as [->|D1], (Nat.eqb_spec q2 q) as [->|D2]; try congruence; intros Hc Hc'.
      * apply in_app_or in Hc as [Hc|[<-|[]]]; [|now apply (NS q2)]. now apply (i_sdisj0 q q2 c).
      * apply in_app_or in Hc' as [Hc'|[<-|[]]]; [|now apply (NS q1)]. now apply (i_sdisj0 q1 q c).
      * now apply (i_sdisj0 q1 q2 c).
    + intros s1 Hs. cbn. rewrite upd_other; [now apply i_dead0|]. intros ->. rewrite ?P0 in C2. destruct (C2 s) as [D _]; [apply in_or_app; right; now left|]. cbn in Hs. lia.
  - (* take *)
    destruct I. match goal with |- inv (set_sub (set_obj _ _ ?x) _ _) => set (o' := x) end.
    set (st' := set_sub (set_obj st q o') s Busy).
    assert (P : pending st' = pending st) by reflexivity. assert (P' : pending_subs st' = pending_subs st) by reflexivity.
    assert (SC : forall q1, sent_calls st' q1 = sent_calls st q1).
    { intros q1. unfold sent_calls, st'. cbn. unfold upd. destruct (Nat.eqb_spec q1 q) as [->|D]; [|reflexivity]. now rewrite H. }
    assert (SS : forall q1, subs_of st' q1 = subs_of st q1).
    { intros q1. unfold subs_of, st'. cbn. unfold upd. destruct (Nat.eqb_spec q1 q) as [->|D]; [|reflexivity]. now rewrite H. }
    assert (Hs : In s (subs_of st q)) by (unfold subs_of; now rewrite H).
    constructor; rewrite ?P, ?P'.
    + intros q1 o1 Ho. destruct (obj_cases st q o' q1 o1 Ho) as [[-> ->]|[_ Ho']]; [|eauto]. unfold taken, o'. cbn. rewrite (i_order0 _ _ H), H2. unfold taken.
      rewrite map_app. cbn. now rewrite <- app_assoc.
    + intros q1 o1 m1 Ho Hm. destruct (obj_cases st q o' q1 o1 Ho) as [[-> ->]|[_ Ho']]; [|eauto]. cbn in *. eauto.
    + intros q1 o1 Ho. destruct (obj_cases st q o' q1 o1 Ho) as [[-> ->]|[_ Ho']]; [|eauto]. cbn. specialize (i_cap0 _ _ H). rewrite H2 in i_cap0. cbn in i_cap0. lia.
    + intros q1 Hq. cbn. rewrite upd_other; [now apply i_alloc0|]. intros ->. cbn in Hq. rewrite i_alloc0 in H by assumption. discriminate.
    + cbn. eapply map_set_obj; eauto.
    + cbn. eapply Forall_impl; [|exact i_ops0]. intros x Hx. eapply (op_ok_set_obj st q o o' x) in Hx; [|exact H|reflexivity]. exact Hx.
    + exact i_calls0.
    + intros q1. rewrite SC. apply i_sent0.
    + intros q1 q2 c. rewrite !SC. apply i_disj0.
    + destruct i_body0 as [B1 B2]. split; [exact B1|]. intros q1 o1 m1 Ho Hm. destruct (obj_cases st q o' q1 o1 Ho) as [[-> ->]|[_ Ho']]; [|eauto]. cbn in Hm. eauto.
    + intros q1 o1 s1 m1 v Ho Hi w Hw. destruct (obj_cases st q o' q1 o1 Ho) as [[-> ->]|[_ Ho']]; [|eauto]. cbn in Hi. apply in_app_or in Hi as [Hi|[E|[]]]; [eauto|].
      injection E as <- <- <-. unfold contents. now rewrite Hw.
    + destruct i_psubs0 as [A B]. split; [exact A|]. intros s1 Hi. destruct (B _ Hi) as [B1 B2]. split; [exact B1|]. cbn. rewrite upd_other; [exact B2|]. intros ->. congruence.
    + intros q1. rewrite SS. apply i_subs0.
    + intros q1 q2 c. rewrite !SS. apply i_sdisj0.
    + intros s1 Hn. cbn. rewrite upd_other; [now apply i_dead0|]. intros ->. destruct (i_subs0 q) as [_ B]. destruct (B _ Hs). cbn in Hn. lia.
  - (* return *) destruct I. constructor; auto.
    + destruct i_psubs0 as [A B]. split; [exact A|]. intros s1 Hi. destruct (B _ Hi) as [B1 B2]. split; [exact B1|]. cbn. rewrite upd_other; [exact B2|]. intros ->. congruence.
    + intros s1 Hn. cbn. rewrite upd_other; [now apply i_dead0|]. intros ->. cbn in Hn. rewrite i_dead0 in H by assumption. discriminate.
  - destruct I. constructor; auto.
  - destruct I. constructor; auto. intros n' q H. cbn in H. destruct (name_dec n' n) as [->|D]; [rewrite updn_same in H; discriminate|]. rewrite updn_other in H by assumption. exact (i_map0 _ _ H).
  - destruct I. constructor; auto.
  - destruct I. constructor; auto.
    + destruct i_psubs0 as [A B]. split; [exact A|]. intros s1 Hi. destruct (B _ Hi) as [B1 B2]. split; [exact B1|]. cbn. unfold upd. destruct (Nat.eqb s1 s); auto.
    + intros s1 Hn. cbn. unfold upd. destruct (Nat.eqb s1 s); [reflexivity|now apply i_dead0].
Qed.
Lemma inv_exec : forall st tr st', inv st -> exec st tr st' -> inv st'.
Proof. intros st tr st' I H. induction H; [exact I|]. apply IHexec. eapply inv_step; eauto. Qed.
Lemma inv_reachable : forall st, reachable st -> inv st.
Proof. intros st (st0 & tr & F & E). exact (inv_exec st0 tr st (inv_fresh st0 F) E). Qed.

(* ------------------------------------------------------------------ *)
(** * Properties *)
(** [delivered st q i s m v]: the [i]-th message taken out of queue object [q] is [m]; subscriber [s] got it and saw
    the contents [v] *)
Definition delivered (st : state) (q : qid) (i : nat) (s : sub) (m : msg) (v : val) : Prop :=
  exists o, st_obj st q = Some o /\ nth_error (o_taken o) i = Some (s, m, v).

(** For every interleaving (races between publishers, subscribers and deletions of queues included), no message is
    delivered twice: neither to two subscribers nor from two queues *)
Theorem C38_at_most_once : forall st, reachable st -> forall q i s m v q' i' s' m' v',
  delivered st q i s m v -> delivered st q' i' s' m' v' -> m_call m = m_call m' -> q = q' /\ i = i' /\ s = s' /\ m = m'.
Proof.
  intros st R q i s m v q' i' s' m' v' (o & Ho & Hi) (o' & Ho' & Hi') E. apply inv_reachable in R. destruct R.
  assert (IN : forall q o i s m v, st_obj st q = Some o -> nth_error (o_taken o) i = Some (s, m, v) -> nth_error (sent_calls st q) i = Some (m_call m)).
  { clear -i_order0. intros q o i s m v Ho Hi. unfold sent_calls. rewrite Ho, (i_order0 _ _ Ho), map_app. unfold taken. rewrite map_map.
    rewrite nth_error_app1.
    - now rewrite (map_nth_error (fun x => m_call (snd (fst x))) i _ Hi).
    - rewrite map_length. apply nth_error_Some. congruence. }
  pose proof (IN _ _ _ _ _ _ Ho Hi) as A. pose proof (IN _ _ _ _ _ _ Ho' Hi') as B. rewrite <- E in B.
  assert (q = q') as <-.
  { destruct (Nat.eq_dec q q') as [|D]; [assumption|]. exfalso. apply nth_error_In in A. apply nth_error_In in B. now apply (i_disj0 q q' (m_call m)). }
  assert (i = i') as <-.
  { destruct (i_sent0 q) as [N _]. eapply NoDup_nth_error; [exact N|apply nth_error_Some; congruence|congruence]. }
  rewrite Ho in Ho'. injection Ho' as <-. rewrite Hi in Hi'. injection Hi' as <- <- _. auto.
Qed.
(** ... a message is delivered only by a queue of the name it was published to *)
Theorem C38_never_crosses_queues : forall st, reachable st -> forall q i s m v o,
  delivered st q i s m v -> st_obj st q = Some o -> o_name o = m_name m.
Proof.
  intros st R q i s m v o (o' & Ho & Hi) Ho'. rewrite Ho in Ho'. injection Ho' as <-. apply inv_reachable in R. destruct R. symmetry. eapply i_name0; [exact Ho|].
  rewrite (i_order0 _ _ Ho). apply in_or_app. left. apply nth_error_In in Hi. unfold taken. change m with (snd (fst (s, m, v))). now apply (in_map (fun x => snd (fst x))).
Qed.
(** ... messages leave a queue in the order in which they were sent into it, none left out: at any moment those sent are
    those delivered followed by those waiting, of which there are at most a thousand *)
Theorem C38_in_order : forall st q o, reachable st -> st_obj st q = Some o ->
  o_sent o = map (fun x => snd (fst x)) (o_taken o) ++ o_chan o /\ length (o_chan o) <= CAP.
Proof. intros st q o R Ho. apply inv_reachable in R. destruct R. split; [now apply (i_order0 _ _ Ho)|now apply (i_cap0 _ _ Ho)]. Qed.
(** ... and the contents delivered of a task, job or heartbeat are those of the moment it was published, whatever the
    publisher does with its object afterwards *)
Theorem C38_contents_at_publish_time : forall st q i s m v, reachable st -> delivered st q i s m v ->
  (forall p, m_body m <> Shared p) -> v = m_was m.
Proof.
  intros st q i s m v R (o & Ho & Hi) Hs. apply inv_reachable in R. destruct R. destruct (m_body m) as [w|p] eqn:B; [|exfalso; now apply (Hs p)].
  pose proof (nth_error_In _ _ Hi) as Hin. rewrite (i_seen0 _ _ _ _ _ Ho Hin _ B). destruct i_body0 as [_ I2].
  assert (Hm : In m (o_sent o)).
  { rewrite (i_order0 _ _ Ho). apply in_or_app. left. unfold taken. change m with (snd (fst (s, m, v))). now apply (in_map (fun x => snd (fst x))). }
  specialize (I2 _ _ _ Ho Hm). unfold body_ok in I2. now rewrite B in I2.
Qed.

(** What was sent stays: later sends come behind *)
Lemma step_sent : forall st l st' q o, inv st -> step st l st' -> st_obj st q = Some o ->
  exists o', st_obj st' q = Some o' /\ o_name o' = o_name o /\ (exists x, o_sent o' = o_sent o ++ x) /\ (exists y, o_taken o' = o_taken o ++ y) /\ incl (o_subs o) (o_subs o').
Proof.
  assert (R : forall o : obj, o_name o = o_name o /\ (exists x, o_sent o = o_sent o ++ x) /\ (exists y, o_taken o = o_taken o ++ y) /\ incl (o_subs o) (o_subs o)).
  { intros o. split; [reflexivity|]. split; [exists []; now rewrite app_nil_r|]. split; [exists []; now rewrite app_nil_r|apply incl_refl]. }
  intros st l st' q0 o0 I H Ho. destruct H; try (exists o0; split; [exact Ho|apply R]).
  - exists o0. split; [|apply R]. cbn. rewrite upd_other; [exact Ho|]. intros ->. destruct I. rewrite i_alloc0 in Ho by lia. discriminate.
  - destruct (Nat.eq_dec q0 q) as [->|D].
    + rewrite Ho in H0. injection H0 as <-. eexists. split; [cbn; apply upd_same|]. cbn. repeat split; [now exists [m]|exists []; now rewrite app_nil_r|apply incl_refl].
    + exists o0. split; [cbn; now rewrite upd_other|apply R].
  - exists o0. split; [|apply R]. cbn. rewrite upd_other; [exact Ho|]. intros ->. destruct I. rewrite i_alloc0 in Ho by lia. discriminate.
  - destruct (Nat.eq_dec q0 q) as [->|D].
    + rewrite Ho in H0. injection H0 as <-. eexists. split; [cbn; apply upd_same|]. cbn. repeat split; [exists []; now rewrite app_nil_r|exists []; now rewrite app_nil_r|].
      intros x Hx. apply in_or_app. now left.
    + exists o0. split; [cbn; now rewrite upd_other|apply R].
  - destruct (Nat.eq_dec q0 q) as [->|D].
    + rewrite Ho in H. injection H as <-. eexists. split; [cbn; apply upd_same|]. cbn. repeat split; [exists []; now rewrite app_nil_r|eexists; reflexivity|apply incl_refl].
    + exists o0. split; [cbn; now rewrite upd_other|apply R].
Qed.
Theorem C38_history_only_grows : forall st tr st' q o, reachable st -> exec st tr st' -> st_obj st q = Some o ->
  exists o', st_obj st' q = Some o' /\ (exists x, o_sent o' = o_sent o ++ x) /\ (exists y, o_taken o' = o_taken o ++ y).
Proof.
  intros st tr st' q o R H. apply inv_reachable in R. revert o. induction H as [|st l st1 tr st2 S E IH]; intros o Ho.
  - exists o. split; [exact Ho|]. split; [exists []|exists []]; now rewrite app_nil_r.
  - destruct (step_sent _ _ _ _ _ R S Ho) as (o1 & Ho1 & _ & (x1 & X1) & (y1 & Y1) & _).
    destruct (IH (inv_step _ _ _ R S) o1 Ho1) as (o2 & Ho2 & (x2 & X2) & (y2 & Y2)). exists o2. split; [exact Ho2|].
    rewrite X2, X1, Y2, Y1, <- !app_assoc. split; eexists; reflexivity.
Qed.

(** Once a queue exists and is not deleted, its name stands for that one queue object: everything published to the name
    from then on is sent to it (and everybody subscribing from then on is added to it) *)
Definition no_delete (n : name) (tr : list label) : Prop := ~ In (LDelete n) tr.
Theorem C38_a_queue_stays : forall st tr st' n q, reachable st -> exec st tr st' -> no_delete n tr -> st_map st n = Some q ->
  (forall m, m_name m = n -> ~ In (PubSet m) (st_ops st)) -> (forall s, ~ In (SubSet n s) (st_ops st)) ->
  st_map st' n = Some q /\ (forall m, m_name m = n -> ~ In (PubSet m) (st_ops st')) /\ (forall s, ~ In (SubSet n s) (st_ops st')) /\
  (forall m q', In (PubSend q' m) (st_ops st') -> m_name m = n -> st_calls st <= m_call m -> q' = q).
Proof.
  intros st tr st' n q R H D M H1 H2. 
  assert (W : forall m q', In (PubSend q' m) (st_ops st) -> m_name m = n -> st_calls st <= m_call m -> q' = q).
  { intros m q' Hi _ Hc. exfalso. apply inv_reachable in R. destruct R. destruct i_calls0 as [_ C]. specialize (C m).
    assert (In m (pending st)) as Hp by (unfold pending; apply in_flat_map; exists (PubSend q' m); split; [assumption|now left]). specialize (C Hp). lia. }
  revert W. generalize (st_calls st) as K. intros K W. clear R.
  induction H as [st|st l st1 tr st2 S E IH]; [auto|].
  apply IH; clear IH E.
  - intros Hi. apply D. now right.
  - destruct S; try exact M; cbn; try (destruct (name_dec n (m_name m)) as [->|N]; [exfalso; apply (H1 m); [reflexivity|rewrite H; apply in_or_app; right; now left]|now rewrite updn_other]).
    + destruct (name_dec n n0) as [->|N]; [exfalso; apply (H2 s); rewrite H; apply in_or_app; right; now left|now rewrite updn_other].
    + rewrite updn_other; [exact M|]. intros ->. apply D. now left.
  - intros m Hm Hi. destruct S; cbn in Hi; try (now apply (H1 m)); try rewrite H in H1;
      try (apply in_app_or in Hi as [Hi|[Hi|Hi]]; [apply (H1 m Hm); apply in_or_app; now left| |apply (H1 m Hm); apply in_or_app; right; now right]); try discriminate.
    + apply in_app_or in Hi as [Hi|[Hi|[]]]; [now apply (H1 m)|discriminate].
    + apply in_app_or in Hi as [Hi|[Hi|[]]]; [now apply (H1 m)|discriminate].
    + injection Hi as ->. congruence.
    + apply (H1 m Hm). apply in_app_or in Hi as [Hi|Hi]; apply in_or_app; [now left|right; now right].
    + apply (H1 m Hm). apply in_app_or in Hi as [Hi|Hi]; apply in_or_app; [now left|right; now right].
  - intros s Hi. destruct S; cbn in Hi; try (now apply (H2 s)); try rewrite H in H2;
      try (apply in_app_or in Hi as [Hi|[Hi|Hi]]; [apply (H2 s); apply in_or_app; now left| |apply (H2 s); apply in_or_app; right; now right]); try discriminate.
    + apply in_app_or in Hi as [Hi|[Hi|[]]]; [now apply (H2 s)|discriminate].
    + apply in_app_or in Hi as [Hi|[Hi|[]]]; [now apply (H2 s)|discriminate].
    + apply (H2 s). apply in_app_or in Hi as [Hi|Hi]; apply in_or_app; [now left|right; now right].
    + injection Hi as -> ->. congruence.
    + apply (H2 s). apply in_app_or in Hi as [Hi|Hi]; apply in_or_app; [now left|right; now right].
  - intros m q' Hi Hm Hc. destruct S; cbn in Hi; try (now apply (W m)); try rewrite H in W;
      try (apply in_app_or in Hi as [Hi|[Hi|Hi]]; [apply (W m); auto; apply in_or_app; now left| |apply (W m); auto; apply in_or_app; right; now right]); try discriminate.
    + apply in_app_or in Hi as [Hi|[Hi|[]]]; [now apply (W m)|discriminate].
    + apply in_app_or in Hi as [Hi|[Hi|[]]]; [now apply (W m)|discriminate].
    + injection Hi as <- <-. congruence.
    + injection Hi as <- <-. exfalso. apply (H1 m0); [assumption|rewrite H; apply in_or_app; right; now left].
    + apply (W m); auto. apply in_app_or in Hi as [Hi|Hi]; apply in_or_app; [now left|right; now right].
    + apply (W m); auto. apply in_app_or in Hi as [Hi|Hi]; apply in_or_app; [now left|right; now right].
Qed.

(** A waiting message and an idle subscriber: it can be taken, at once.  So when nothing can be taken any more and one
    subscriber is idle, everything sent was delivered. *)
Theorem C38_nothing_is_left : forall st q o s, reachable st -> st_obj st q = Some o -> In s (o_subs o) -> st_sub st s = Idle ->
  (forall s' st', ~ step st (LTake q s') st') -> map (fun x => snd (fst x)) (o_taken o) = o_sent o.
Proof.
  intros st q o s R Ho Hs Hi Hn. destruct (C38_in_order st q o R Ho) as [E _]. destruct (o_chan o) as [|m r] eqn:C.
  - now rewrite app_nil_r in E.
  - exfalso. eapply Hn. eapply s_take; eauto.
Qed.
(** A publish waits only for room in its queue *)
Theorem C38_publish_waits_only_when_full : forall st x, reachable st -> In x (st_ops st) ->
  (exists st', step st LOp st') \/ (exists q m o, x = PubSend q m /\ st_obj st q = Some o /\ length (o_chan o) = CAP).
Proof.
  intros st x R Hx. apply inv_reachable in R. destruct R. rewrite Forall_forall in i_ops0. specialize (i_ops0 _ Hx).
  apply in_split in Hx as (a & b & E). destruct x as [m|m|q m|n s|n s|q s].
  - left. destruct (st_map st (m_name m)) eqn:M; eexists; [eapply s_get_found; eauto|eapply s_get_none; eauto].
  - left. eexists. eapply s_set; eauto.
  - destruct i_ops0 as (o & Ho & _). specialize (i_cap0 _ _ Ho). destruct (Nat.eq_dec (length (o_chan o)) CAP) as [D|D].
    + right. exists q, m, o. auto.
    + left. eexists. eapply s_send; eauto. lia.
  - left. destruct (st_map st n) eqn:M; eexists; [eapply s_sget_found; eauto|eapply s_sget_none; eauto].
  - left. eexists. eapply s_sset; eauto.
  - left. destruct i_ops0 as (o & Ho). eexists. eapply s_sadd; eauto.
Qed.
(** A subscriber that has ended (Shutdown waits for that on the coordinator's queues) gets nothing any more *)
Theorem C38_ended_gets_nothing : forall st tr st' s, reachable st -> exec st tr st' -> st_sub st s = Dead -> ~ In s (pending_subs st) -> s < st_nsub st ->
  st_sub st' s = Dead /\ forall q, ~ In (LTake q s) tr.
Proof.
  intros st tr st' s R H. apply inv_reachable in R.
  induction H as [st|st l st1 tr st2 S E IH]; intros Hd Hp Hn; [split; [assumption|intros q []]|].
  assert (Step : st_sub st1 s = Dead /\ ~ In s (pending_subs st1) /\ s < st_nsub st1 /\ forall q, l <> LTake q s).
  { assert (X : forall a x b, ~ In s (flat_map op_sub (a ++ x :: b)) -> forall y, (forall z, In z (op_sub y) -> In z (op_sub x)) -> ~ In s (flat_map op_sub (a ++ y :: b))).
    { intros a x b H y Hy Hi. apply H. rewrite flat_map_mid in *. apply in_app_or in Hi as [Hi|Hi]; [apply in_or_app; now left|].
      apply in_app_or in Hi as [Hi|Hi]; apply in_or_app; right; apply in_or_app; [left; auto|now right]. }
    assert (Y : forall a x b, ~ In s (flat_map op_sub (a ++ x :: b)) -> ~ In s (flat_map op_sub (a ++ b))).
    { intros a x b H Hi. apply H. rewrite flat_map_mid. rewrite flat_map_app in Hi. apply in_app_or in Hi as [Hi|Hi]; apply in_or_app; [now left|]. right. apply in_or_app. now right. }
    destruct S; unfold pending_subs in *; cbn -[upd] in *; try rewrite H in Hp; repeat split; try assumption; try discriminate; try lia; eauto.
    - rewrite flat_map_app. intros Hi. apply in_app_or in Hi as [Hi|[]]. auto.
    - rewrite flat_map_app. intros Hi. apply in_app_or in Hi as [Hi|[Hi|[]]]; [auto|lia].
    - rewrite upd_other; [assumption|]. intros ->. apply Hp. rewrite flat_map_mid. apply in_or_app. right. now left.
    - rewrite upd_other; [assumption|]. intros ->. congruence.
    - intros q1 [= _ ->]. congruence.
    - rewrite upd_other; [assumption|]. intros ->. congruence.
    - unfold upd. destruct (Nat.eqb s s0); [reflexivity|assumption]. }
  destruct Step as (A & B & C & D). destruct (IH (inv_step _ _ _ R S) A B C) as [F G]. split; [exact F|].
  intros q [-> |Hi]; [now apply (D q)|now apply (G q)].
Qed.
End Queues.

(* ------------------------------------------------------------------ *)
(** * What the broker does not guarantee (queues named by numbers, contents numbers) *)
Notation stN := (state nat nat).
Notation stepN := (step nat Nat.eq_dec nat).
Notation execN := (exec nat Nat.eq_dec nat).
Notation reachN := (reachable nat Nat.eq_dec nat).
Definition st_init : stN := mkState nat nat (fun _ => 7) (fun _ => None) (fun _ => None) 0 [] 0 0 (fun _ => Dead) (fun _ => false).
Lemma init_fresh : fresh nat nat st_init.
Proof. repeat split. Qed.

(** a queue object nobody can find any more, without subscribers *)
Definition lost (st : stN) (q : nat) : Prop :=
  (forall n, st_map _ _ st n <> Some q) /\ (forall s, ~ In (SubAdd nat nat q s) (st_ops _ _ st)) /\ q < st_nq _ _ st /\
  exists o, st_obj _ _ st q = Some o /\ o_subs _ _ o = [].
Lemma lost_stays : forall st tr st' q, execN st tr st' -> lost st q -> lost st' q /\ forall o o', st_obj _ _ st q = Some o -> st_obj _ _ st' q = Some o' -> o_taken _ _ o' = o_taken _ _ o.
Proof.
  intros st tr st' q H. induction H as [st|st l st1 tr st2 S E IH]; intros L.
  - split; [exact L|]. intros o o' A B. congruence.
  - assert (X : lost st1 q /\ forall o o', st_obj _ _ st q = Some o -> st_obj _ _ st1 q = Some o' -> o_taken _ _ o' = o_taken _ _ o).
    { clear IH E. unfold lost in *. destruct L as (L1 & L2 & L3 & o & L4 & L5). destruct S; cbn -[upd updn] in *;
      try (split; [split; [assumption|split; [|split; [assumption|exists o; split; assumption]]]|intros; congruence]; try assumption;
           try (intros s' Hi; apply in_app_or in Hi as [Hi|[Hi|[]]]; [now apply (L2 s')|discriminate]);
           try (intros s' Hi; apply (L2 s'); rewrite H; apply in_app_or in Hi as [Hi|[Hi|Hi]]; [apply in_or_app; now left|try discriminate|apply in_or_app; right; now right])).
      - (* set *) split; [split; [|split; [|split; [lia|exists o; rewrite upd_other by lia; auto]]]|rewrite upd_other by lia; intros; congruence].
        + intros n Hn. destruct (Nat.eq_dec n (m_name _ _ m)) as [->|D]; [rewrite updn_same in Hn; injection Hn as <-; lia|rewrite updn_other in Hn by assumption; now apply (L1 n)].
        + intros s' Hi; apply (L2 s'); rewrite H; apply in_app_or in Hi as [Hi|[Hi|Hi]]; [apply in_or_app; now left|discriminate|apply in_or_app; right; now right].
      - (* send *) assert (O : forall s', ~ In (SubAdd nat nat q s') (a ++ b)).
        { intros s' Hi; apply (L2 s'); rewrite H; apply in_app_or in Hi as [Hi|Hi]; apply in_or_app; [now left|right; now right]. }
        destruct (Nat.eq_dec q0 q) as [->|D].
        + split; [split; [exact L1|split; [exact O|split; [exact L3|]]]|].
          * eexists. rewrite upd_same. split; [reflexivity|]. cbn. congruence.
          * intros oa ob Ha Hb. rewrite upd_same in Hb. injection Hb as <-. cbn. congruence.
        + split; [split; [exact L1|split; [exact O|split; [exact L3|exists o; rewrite upd_other by auto; auto]]]|]. rewrite upd_other by auto. intros; congruence.
      - injection Hi as -> ->. exfalso. now apply (L1 n).
      - (* sset *) split; [split; [|split; [|split; [lia|exists o; rewrite upd_other by lia; auto]]]|rewrite upd_other by lia; intros; congruence].
        + intros n' Hn. destruct (Nat.eq_dec n' n) as [->|D]; [rewrite updn_same in Hn; injection Hn as <-; lia|rewrite updn_other in Hn by assumption; now apply (L1 n')].
        + intros s' Hi; apply (L2 s'); rewrite H; apply in_app_or in Hi as [Hi|[Hi|Hi]]; [apply in_or_app; now left|injection Hi as Hi _; lia|apply in_or_app; right; now right].
      - (* sadd *) assert (O : forall s', ~ In (SubAdd nat nat q s') (a ++ b)).
        { intros s' Hi; apply (L2 s'); rewrite H; apply in_app_or in Hi as [Hi|Hi]; apply in_or_app; [now left|right; now right]. }
        assert (D : q0 <> q) by (intros ->; apply (L2 s); rewrite H; apply in_or_app; right; now left).
        split; [split; [exact L1|split; [exact O|split; [exact L3|exists o; rewrite upd_other by auto; auto]]]|]. rewrite upd_other by auto. intros; congruence.
      - (* take *) assert (D : q0 <> q) by (intros ->; rewrite L4 in H; injection H as <-; rewrite L5 in H0; destruct H0).
        split; [split; [exact L1|split; [exact L2|split; [exact L3|exists o; rewrite upd_other by auto; auto]]]|]. rewrite upd_other by auto. intros; congruence.
      - (* delete *) split; [split; [|split; [exact L2|split; [exact L3|exists o; auto]]]|intros; congruence].
        intros n' Hn. destruct (Nat.eq_dec n' n) as [->|D]; [rewrite updn_same in Hn; discriminate|rewrite updn_other in Hn by assumption; now apply (L1 n')]. }
    destruct X as [X1 X2]. destruct (IH X1) as [Y1 Y2]. split; [exact Y1|]. intros o o' Ho Ho'.
    destruct X1 as (_ & _ & _ & o1 & Ho1 & _). rewrite (Y2 o1 o' Ho1 Ho'). now apply X2.
Qed.

Ltac nf := match goal with |- exec _ _ _ ?st _ _ => let x := eval cbv -[Nat.eq_dec upd updn] in st in change st with x end.
Ltac ex t := eapply e_cons; [t|]; nf.
(** Two goroutines that find a queue missing both create it: when the first publish to a queue and the first
    subscription race, the message is lost - both calls return, and no continuation ever delivers it *)
Theorem C38_first_use_race_refuted : exists st q o m, reachN st /\ st_ops _ _ st = [] /\ st_obj _ _ st q = Some o /\ In m (o_chan _ _ o) /\
  forall tr st', execN st tr st' -> exists o', st_obj _ _ st' q = Some o' /\ o_taken _ _ o' = [].
Proof.
  assert (E : exists st, execN st_init [LPublish nat nat false 0 5; LSubscribe nat nat 5; LOp nat nat; LOp nat nat; LOp nat nat; LOp nat nat; LOp nat nat; LOp nat nat] st /\
    st_ops _ _ st = [] /\ lost st 0 /\ st_obj _ _ st 0 = Some (mkObj nat nat 5 [mkMsg nat nat 0 5 (Clone nat 7) 7] [] [mkMsg nat nat 0 5 (Clone nat 7) 7] [])).
  { eexists. split.
    - ex ltac:(apply s_publish). ex ltac:(apply s_subscribe).
      ex ltac:(eapply (s_get_none _ _ _ _ []); reflexivity).
      ex ltac:(eapply (s_sget_none _ _ _ _ [_]); reflexivity).
      ex ltac:(eapply (s_set _ _ _ _ []); reflexivity).
      ex ltac:(eapply (s_sset _ _ _ _ [_]); reflexivity).
      ex ltac:(eapply (s_send _ _ _ _ []); [reflexivity|reflexivity|unfold CAP; cbn; lia]).
      ex ltac:(eapply (s_sadd _ _ _ _ []); [reflexivity|reflexivity]). apply e_nil.
    - split; [reflexivity|]. split; [|reflexivity]. split; [|split; [|split; [cbn; lia|eexists; split; reflexivity]]].
      + intros n. cbn. unfold updn. destruct (Nat.eq_dec n 5); discriminate.
      + intros s []. }
  destruct E as (st & E & Ho & L & Hob). exists st, 0. eexists. eexists. split; [exact (ex_intro _ st_init (ex_intro _ _ (conj init_fresh E)))|]. split; [exact Ho|]. split; [exact Hob|]. split; [left; reflexivity|].
  intros tr st' E'. destruct (lost_stays _ _ _ _ E' L) as [(_ & _ & _ & o' & A & _) B]. exists o'. split; [exact A|]. rewrite (B _ _ Hob A). reflexivity.
Qed.
(** After DeleteQueue the subscribers of the name are cut off from what is published to it later *)
Theorem C38_delete_cuts_off_refuted : exists st q0 o0 q1 o1 s m, reachN st /\
  st_obj _ _ st q0 = Some o0 /\ o_name _ _ o0 = 5 /\ In s (o_subs _ _ o0) /\ st_sub _ _ st s = Idle /\
  st_obj _ _ st q1 = Some o1 /\ o_name _ _ o1 = 5 /\ In m (o_chan _ _ o1) /\ (forall s' st', ~ stepN st (LTake nat nat q1 s') st').
Proof.
  assert (E : exists st, execN st_init [LSubscribe nat nat 5; LOp nat nat; LOp nat nat; LOp nat nat; LDelete nat nat 5; LPublish nat nat false 0 5; LOp nat nat; LOp nat nat; LOp nat nat] st /\
    st_obj _ _ st 0 = Some (mkObj nat nat 5 [] [0] [] []) /\ st_sub _ _ st 0 = Idle /\
    st_obj _ _ st 1 = Some (mkObj nat nat 5 [mkMsg nat nat 0 5 (Clone nat 7) 7] [] [mkMsg nat nat 0 5 (Clone nat 7) 7] [])).
  { eexists. split.
    - ex ltac:(apply s_subscribe).
      ex ltac:(eapply (s_sget_none _ _ _ _ []); reflexivity).
      ex ltac:(eapply (s_sset _ _ _ _ []); reflexivity).
      ex ltac:(eapply (s_sadd _ _ _ _ []); reflexivity).
      ex ltac:(apply s_delete). ex ltac:(apply s_publish).
      ex ltac:(eapply (s_get_none _ _ _ _ []); reflexivity).
      ex ltac:(eapply (s_set _ _ _ _ []); reflexivity).
      ex ltac:(eapply (s_send _ _ _ _ []); [reflexivity|reflexivity|unfold CAP; cbn; lia]). apply e_nil.
    - repeat split. }
  destruct E as (st & E & A & B & C). exists st, 0. eexists. exists 1. eexists. exists 0. eexists.
  split; [exact (ex_intro _ st_init (ex_intro _ _ (conj init_fresh E)))|]. split; [exact A|]. split; [reflexivity|]. split; [left; reflexivity|]. split; [exact B|]. split; [exact C|]. split; [reflexivity|]. split; [left; reflexivity|].
  intros s' st' H. remember (LTake nat nat 1 s') as l eqn:El. destruct H; try discriminate. injection El as -> ->.
  rewrite C in H. injection H as <-. destruct H0.
Qed.
(** A log part or progress report is delivered with the contents its publisher gave it afterwards *)
Theorem C38_shared_contents_refuted : exists st q i s m v, reachN st /\ delivered nat nat st q i s m v /\ m_was _ _ m = 7 /\ v = 8.
Proof.
  assert (E : exists st, execN st_init [LSubscribe nat nat 5; LOp nat nat; LOp nat nat; LOp nat nat; LPublish nat nat true 0 5; LOp nat nat; LOp nat nat; LChange nat nat 0 8; LTake nat nat 0 0] st /\
    delivered nat nat st 0 0 0 (mkMsg nat nat 0 5 (Shared nat 0) 7) 8).
  { eexists. split.
    - ex ltac:(apply s_subscribe).
      ex ltac:(eapply (s_sget_none _ _ _ _ []); reflexivity).
      ex ltac:(eapply (s_sset _ _ _ _ []); reflexivity).
      ex ltac:(eapply (s_sadd _ _ _ _ []); reflexivity). ex ltac:(apply s_publish).
      ex ltac:(eapply (s_get_found _ _ _ _ []); reflexivity).
      ex ltac:(eapply (s_send _ _ _ _ []); [reflexivity|reflexivity|unfold CAP; cbn; lia]).
      ex ltac:(apply s_change).
      ex ltac:(eapply s_take; [reflexivity|left; reflexivity|reflexivity|reflexivity]). apply e_nil.
    - eexists. split; reflexivity. }
  destruct E as (st & E & D). exists st, 0, 0, 0. eexists. eexists. split; [exact (ex_intro _ st_init (ex_intro _ _ (conj init_fresh E)))|]. split; [exact D|]. split; reflexivity.
Qed.
(** A case for the theorems: one queue, one subscriber, two messages; the publisher changes its object in between *)
Example C38_case : exists st, reachN st /\ st_map _ _ st 5 = Some 0 /\ st_ops _ _ st = [] /\ st_sub _ _ st 0 = Idle /\
  delivered nat nat st 0 0 0 (mkMsg nat nat 0 5 (Clone nat 7) 7) 7 /\ delivered nat nat st 0 1 0 (mkMsg nat nat 1 5 (Clone nat 8) 8) 8.
Proof.
  assert (E : exists st, execN st_init [LSubscribe nat nat 5; LOp nat nat; LOp nat nat; LOp nat nat; LPublish nat nat false 0 5; LOp nat nat; LOp nat nat; LChange nat nat 0 8;
      LPublish nat nat false 0 5; LOp nat nat; LOp nat nat; LTake nat nat 0 0; LReturn nat nat 0; LTake nat nat 0 0; LReturn nat nat 0] st /\
      st_map _ _ st 5 = Some 0 /\ st_ops _ _ st = [] /\ st_sub _ _ st 0 = Idle /\ delivered nat nat st 0 0 0 (mkMsg nat nat 0 5 (Clone nat 7) 7) 7 /\ delivered nat nat st 0 1 0 (mkMsg nat nat 1 5 (Clone nat 8) 8) 8).
  { eexists. split.
    - ex ltac:(apply s_subscribe).
      ex ltac:(eapply (s_sget_none _ _ _ _ []); reflexivity).
      ex ltac:(eapply (s_sset _ _ _ _ []); reflexivity).
      ex ltac:(eapply (s_sadd _ _ _ _ []); reflexivity). ex ltac:(apply s_publish).
      ex ltac:(eapply (s_get_found _ _ _ _ []); reflexivity).
      ex ltac:(eapply (s_send _ _ _ _ []); [reflexivity|reflexivity|unfold CAP; cbn; lia]).
      ex ltac:(apply s_change). ex ltac:(apply s_publish).
      ex ltac:(eapply (s_get_found _ _ _ _ []); reflexivity).
      ex ltac:(eapply (s_send _ _ _ _ []); [reflexivity|reflexivity|unfold CAP; cbn; lia]).
      ex ltac:(eapply s_take; [reflexivity|left; reflexivity|reflexivity|reflexivity]). ex ltac:(apply s_return; reflexivity).
      ex ltac:(eapply s_take; [reflexivity|left; reflexivity|reflexivity|reflexivity]). ex ltac:(apply s_return; reflexivity). apply e_nil.
    - repeat split; eexists; split; reflexivity. }
  destruct E as (st & E & R). exists st. split; [exact (ex_intro _ st_init (ex_intro _ _ (conj init_fresh E)))|exact R].
Qed.

(* ------------------------------------------------------------------ *)
(** * Topics (inmemory.go:27-74, 273-292) *)
Section Topic.
Variable event : Type.
(** what the topic's goroutine is doing: waiting for an event; has received one; calling the subscribers still listed,
    with the lock held *)
Inductive doing := Waiting | Got (e : event) | Calling (e : event) (rest : list nat).
(** [tp_log]: the events the goroutine started to distribute; [tp_heard s]: those subscriber [s] was called with;
    [tp_since s]: how many had been distributed when it subscribed *)
Record topic := mkTopic { tp_subs : list nat; tp_next : nat; tp_doing : doing; tp_log : list event; tp_heard : nat -> list event; tp_since : nat -> nat }.
Inductive tlabel := TPublish (e : event) | TSubscribe | TInternal.
Inductive tstep : topic -> tlabel -> topic -> Prop :=
(** 63-65: the channel has no buffer *)
| ts_publish : forall t e, tp_doing t = Waiting ->
  tstep t (TPublish e) (mkTopic (tp_subs t) (tp_next t) (Got e) (tp_log t) (tp_heard t) (tp_since t))
(** 46-47 *)
| ts_lock : forall t e, tp_doing t = Got e ->
  tstep t TInternal (mkTopic (tp_subs t) (tp_next t) (Calling e (tp_subs t)) (tp_log t ++ [e]) (tp_heard t) (tp_since t))
(** 48-50: one call *)
| ts_call : forall t e s r, tp_doing t = Calling e (s :: r) ->
  tstep t TInternal (mkTopic (tp_subs t) (tp_next t) (Calling e r) (tp_log t) (upd (tp_heard t) s (tp_heard t s ++ [e])) (tp_since t))
(** 51 *)
| ts_unlock : forall t e, tp_doing t = Calling e [] ->
  tstep t TInternal (mkTopic (tp_subs t) (tp_next t) Waiting (tp_log t) (tp_heard t) (tp_since t))
(** 57-61: waits for the lock *)
| ts_subscribe : forall t, (forall e r, tp_doing t <> Calling e r) ->
  tstep t TSubscribe (mkTopic (tp_subs t ++ [tp_next t]) (S (tp_next t)) (tp_doing t) (tp_log t) (upd (tp_heard t) (tp_next t) []) (upd (tp_since t) (tp_next t) (length (tp_log t)))).
Inductive texec : topic -> list tlabel -> topic -> Prop :=
| te_nil : forall t, texec t [] t
| te_cons : forall t l t1 tr t2, tstep t l t1 -> texec t1 tr t2 -> texec t (l :: tr) t2.
Definition new_topic : topic := mkTopic [] 0 Waiting [] (fun _ => []) (fun _ => 0).

Definition in_flight (t : topic) (s : nat) : list event :=
  match tp_doing t with Calling e r => if existsb (Nat.eqb s) r then [e] else [] | _ => [] end.
Definition tinv (t : topic) : Prop :=
  NoDup (tp_subs t) /\ (forall s, In s (tp_subs t) -> s < tp_next t) /\
  (forall e r, tp_doing t = Calling e r -> NoDup r /\ incl r (tp_subs t)) /\
  forall s, In s (tp_subs t) -> tp_since t s <= length (tp_log t) /\ tp_heard t s ++ in_flight t s = skipn (tp_since t s) (tp_log t).
Lemma existsb_eqb : forall s r, existsb (Nat.eqb s) r = true <-> In s r.
Proof. intros. rewrite existsb_exists. split; [intros (x & H & E); apply Nat.eqb_eq in E; now subst|intros H; exists s; split; [exact H|apply Nat.eqb_refl]]. Qed.
Lemma tinv_step : forall t l t', tinv t -> tstep t l t' -> tinv t'.
Proof.
  intros t l t' (N & B & C & H) S. destruct S; unfold tinv, in_flight in *; cbn in *.
  - split; [exact N|]. split; [exact B|]. split; [discriminate|]. intros s Hs. destruct (H s Hs) as [H1 H2]. rewrite H0 in H2. auto.
  - split; [exact N|]. split; [exact B|]. split; [intros e0 r [= <- <-]; split; [exact N|apply incl_refl]|]. intros s Hs. destruct (H s Hs) as [H1 H2]. rewrite H0, app_nil_r in H2.
    rewrite app_length. split; [cbn; lia|]. apply existsb_eqb in Hs. rewrite Hs, skipn_app, H2. replace (tp_since t s - length (tp_log t)) with 0 by lia. reflexivity.
  - destruct (C _ _ H0) as [C1 C2]. inversion C1 as [|x l Cn Cd]; subst. split; [exact N|]. split; [exact B|]. split; [intros e0 r0 [= <- <-]; split; [exact Cd|intros x Hx; apply C2; now right]|].
    intros s1 Hs. destruct (H s1 Hs) as [H1 H2]. split; [exact H1|]. rewrite H0 in H2. cbn in H2. unfold upd. destruct (Nat.eqb_spec s1 s) as [->|D].
    + cbn in H2. assert (existsb (Nat.eqb s) r = false) as -> by (apply not_true_iff_false; rewrite existsb_eqb; exact Cn). now rewrite app_nil_r.
    + exact H2.
  - split; [exact N|]. split; [exact B|]. split; [discriminate|]. intros s Hs. destruct (H s Hs) as [H1 H2]. rewrite H0 in H2. auto.
  - split; [|split; [|split]].
    + apply NoDup_snoc; [exact N|]. intros Hi. specialize (B _ Hi). lia.
    + intros s Hs. apply in_app_or in Hs as [Hs|[<-|[]]]; [specialize (B _ Hs)|]; lia.
    + intros e r He. exfalso. eapply H0; eauto.
    + assert (F : forall s, (match tp_doing t with Calling e r => if existsb (Nat.eqb s) r then [e] else [] | _ => [] end) = ([] : list event)).
      { intros s. destruct (tp_doing t) eqn:E; try reflexivity. exfalso. eapply H0; eauto. }
      intros s Hs. rewrite F, app_nil_r. apply in_app_or in Hs as [Hs|[<-|[]]].
      * destruct (H s Hs) as [H1 H2]. rewrite F, app_nil_r in H2. specialize (B _ Hs). rewrite !upd_other by lia. auto.
      * rewrite !upd_same. split; [lia|]. now rewrite skipn_all.
Qed.
Lemma tinv_exec : forall t tr t', texec t tr t' -> tinv t -> tinv t'.
Proof. intros t tr t' H. induction H; intros I; [exact I|]. apply IHtexec. eapply tinv_step; eauto. Qed.
Lemma tinv_new : tinv new_topic.
Proof. split; [constructor|]. split; [intros s []|]. split; [discriminate|intros s []]. Qed.

(** Whenever the topic is at rest, each subscriber has been called exactly with the events distributed since it
    subscribed, each once, in order *)
Theorem C38_every_subscriber_hears_every_event : forall tr t s, texec new_topic tr t -> In s (tp_subs t) -> tp_doing t = Waiting ->
  tp_heard t s = skipn (tp_since t s) (tp_log t).
Proof.
  intros tr t s E Hs W. destruct (tinv_exec _ _ _ E tinv_new) as (_ & _ & _ & H). destruct (H s Hs) as [_ H2]. unfold in_flight in H2. now rewrite W, app_nil_r in H2.
Qed.
(** ... at any other time, at most the event being distributed is missing *)
Theorem C38_at_most_one_behind : forall tr t s, texec new_topic tr t -> In s (tp_subs t) ->
  exists x, length x <= 1 /\ tp_heard t s ++ x = skipn (tp_since t s) (tp_log t).
Proof.
  intros tr t s E Hs. destruct (tinv_exec _ _ _ E tinv_new) as (_ & _ & _ & H). destruct (H s Hs) as [_ H2]. exists (in_flight t s). split; [|exact H2].
  unfold in_flight. destruct (tp_doing t); cbn; try lia. destruct (existsb _ _); cbn; lia.
Qed.
(** The log is what was published, in order (but for one event received and not yet distributed) *)
Definition published (tr : list tlabel) : list event := flat_map (fun l => match l with TPublish e => [e] | _ => [] end) tr.
Theorem C38_distributed_is_published : forall tr t, texec new_topic tr t ->
  published tr = tp_log t ++ match tp_doing t with Got e => [e] | _ => [] end.
Proof.
  assert (G : forall t tr t', texec t tr t' -> (tp_log t ++ match tp_doing t with Got e => [e] | _ => [] end) ++ published tr = tp_log t' ++ match tp_doing t' with Got e => [e] | _ => [] end).
  { intros t tr t' H. induction H as [t|t l t1 tr t2 S E IH]; [cbn; apply app_nil_r|]. rewrite <- IH. clear IH E.
    destruct S; cbn [tp_log tp_doing]; try rewrite H; cbn [published flat_map]; fold (published tr); rewrite ?app_nil_r, <- ?app_assoc; reflexivity. }
  intros tr t H. apply (G _ _ _ H).
Qed.
(** A subscriber that publishes to its own topic, or subscribes to it, from inside its handler waits for ever: while a
    handler runs no publish and no subscription goes ahead *)
Theorem C38_handler_calling_back_refuted : forall t e s r, tp_doing t = Calling e (s :: r) ->
  (forall e' t', ~ tstep t (TPublish e') t') /\ (forall t', ~ tstep t TSubscribe t').
Proof.
  intros t e s r D. split.
  - intros e' t' S. inversion S; congruence.
  - intros t' S. inversion S; subst. eapply H; eauto.
Qed.
End Topic.

(** ** Which topics an event goes to (inmemory.go:283-290): [topics]: the names subscribed to *)
From Verif Require Wildcard.
Definition publish_to (topics : list Wildcard.bytes) (n : Wildcard.bytes) : list Wildcard.bytes := filter (fun p => Wildcard.wild_match p n) topics.
Theorem C38_events_go_to_matching_topics : forall topics n p, In p (publish_to topics n) <-> In p topics /\ Wildcard.obtained p n.
Proof. intros topics n p. unfold publish_to. rewrite filter_In. now rewrite Wildcard.C41_wildcard. Qed.
Ltac tex t := eapply te_cons; [t|]; match goal with |- texec _ ?st _ _ => let x := eval cbv -[upd] in st in change st with x end.
Example C38_topic_case : exists tr t, texec nat (new_topic nat) tr t /\ tp_doing _ t = Waiting _ /\ tp_subs _ t = [0; 1] /\ tp_heard _ t 0 = [4; 5] /\ tp_heard _ t 1 = [5].
Proof.
  eexists. eexists. split.
  - tex ltac:(apply ts_subscribe; discriminate). tex ltac:(apply (ts_publish _ _ 4); reflexivity).
    tex ltac:(eapply ts_lock; reflexivity). tex ltac:(eapply ts_call; reflexivity). tex ltac:(eapply ts_unlock; reflexivity).
    tex ltac:(apply ts_subscribe; discriminate). tex ltac:(apply (ts_publish _ _ 5); reflexivity).
    tex ltac:(eapply ts_lock; reflexivity). tex ltac:(eapply ts_call; reflexivity). tex ltac:(eapply ts_call; reflexivity). tex ltac:(eapply ts_unlock; reflexivity). apply te_nil.
  - repeat split.
Qed.

Print Assumptions C38_at_most_once.
Print Assumptions C38_never_crosses_queues.
Print Assumptions C38_in_order.
Print Assumptions C38_contents_at_publish_time.
Print Assumptions C38_history_only_grows.
Print Assumptions C38_a_queue_stays.
Print Assumptions C38_nothing_is_left.
Print Assumptions C38_publish_waits_only_when_full.
Print Assumptions C38_ended_gets_nothing.
Print Assumptions C38_first_use_race_refuted.
Print Assumptions C38_delete_cuts_off_refuted.
Print Assumptions C38_shared_contents_refuted.
Print Assumptions C38_every_subscriber_hears_every_event.
Print Assumptions C38_at_most_one_behind.
Print Assumptions C38_distributed_is_published.
Print Assumptions C38_handler_calling_back_refuted.
Print Assumptions C38_events_go_to_matching_topics.
