(** C36: what the heartbeats of nodes leave in the store, and how nodes are reported.
    internal/coordinator/handlers/heartbeat.go:21-43; datastore/postgres/postgres.go:524-590 (CreateNode, UpdateNode,
    GetNodeByID, GetActiveNodes); datastore/postgres/record.go:284-304 (toNode).

    Any number of coordinators handle heartbeats at once.  Handling one is two steps on the store: the lookup
    (GetNodeByID) and the write (CreateNode, or UpdateNode, whose read and write are one step because it locks the row).
    Times are those the database keeps (microseconds). *)
From Verif Require Import Types World Eval Clone Handlers.
Open Scope string_scope.
Open Scope list_scope.
Open Scope Z_scope.

(** node.go:8,7 *)
Definition HEARTBEAT_RATE : Z := 30 * 10 ^ 6.
Definition LAST_HEARTBEAT_TIMEOUT : Z := 300 * 10 ^ 6.
Definition is_up (s : nstatus) : bool := match s with NUp => true | _ => false end.
(** record.go:284-304: how a row is read at time [now] *)
Definition to_node (now : time) (r : node) : node :=
  if (n_heartbeat r <? now - HEARTBEAT_RATE * 2) && is_up (n_status r) then r <| n_status := NOffline |> else r.
(** heartbeat.go:31-42: the same function as in the coordinator's handler *)
Notation beat := heartbeat_modify.

Inductive phase := Look | Create | Update.
Record state := mkState { rows : id -> option node; busy : list (node * phase); applied : list node }.
Definition upd (f : id -> option node) (i : id) (r : node) : id -> option node := fun j => if N.eqb j i then Some r else f j.
Definition start : state := mkState (fun _ => None) [] [].

(** Steps; [now] is the clock of the coordinator that takes it.  [applied] remembers, for the specification only, the
    heartbeats that were handled without an error. *)
Inductive step : time -> state -> state -> Prop :=
| s_receive now s n : step now s (mkState (rows s) (busy s ++ [(n, Look)]) (applied s))
(* heartbeat.go:22-29: not found: the node is created; found, or any other error: it is updated *)
| s_unknown now s n a b : busy s = a ++ (n, Look) :: b -> rows s (n_id n) = None ->
    step now s (mkState (rows s) (a ++ (n, Create) :: b) (applied s))
| s_known now s n a b : busy s = a ++ (n, Look) :: b ->
    step now s (mkState (rows s) (a ++ (n, Update) :: b) (applied s))
(* postgres.go:524-534: the identifier is the primary key *)
| s_create now s n a b : busy s = a ++ (n, Create) :: b -> rows s (n_id n) = None ->
    step now s (mkState (upd (rows s) (n_id n) n) (a ++ b) (applied s ++ [n]))
(* postgres.go:536-562 *)
| s_update now s n a b r : busy s = a ++ (n, Update) :: b -> rows s (n_id n) = Some r ->
    step now s (mkState (upd (rows s) (n_id n) (beat n (to_node now r))) (a ++ b) (applied s ++ [n]))
(* the store fails, the constraint is violated, the row is missing or the coordinator dies: nothing is written *)
| s_error now s n p a b : busy s = a ++ (n, p) :: b -> step now s (mkState (rows s) (a ++ b) (applied s)).

(** executions; [t] is the latest clock reading so far *)
Inductive run : time -> state -> Prop :=
| run_start t : run t start
| run_step t now s s' : run t s -> step now s s' -> t <= now -> run now s'.
(** executions in which clocks disagree *)
Inductive run_skewed : state -> Prop :=
| sk_start : run_skewed start
| sk_step now s s' : run_skewed s -> step now s s' -> run_skewed s'.

(** ** Specification *)
(** [n] is among the handled heartbeats of node [i] one with the latest time *)
Definition latest (i : id) (hs : list node) (n : node) : Prop :=
  In n hs /\ n_id n = i /\ forall m, In m hs -> n_id m = i -> n_heartbeat m <= n_heartbeat n.
Definition two_periods : Z := 60 * 10 ^ 6.
(** how a node whose latest heartbeat is [n] is to be reported at [now] *)
Definition reported_status (now : time) (n : node) (s : nstatus) : Prop :=
  (s = NOffline <-> n_status n = NOffline \/ (n_status n = NUp /\ n_heartbeat n < now - two_periods)) /\
  (s = NOffline \/ s = n_status n).

Lemma beat_heartbeat n u : n_heartbeat (beat n u) = Z.max (n_heartbeat n) (n_heartbeat u).
Proof. unfold heartbeat_modify. destruct (Z.ltb_spec (n_heartbeat n) (n_heartbeat u)); [lia|]. destruct u; unfold set; cbn in *. lia. Qed.
Lemma to_node_heartbeat now r : n_heartbeat (to_node now r) = n_heartbeat r.
Proof. unfold to_node. destruct r. destruct (_ && _); reflexivity. Qed.
Lemma to_node_status now r : n_status (to_node now r) = if (n_heartbeat r <? now - 60000000) && is_up (n_status r) then NOffline else n_status r.
Proof. unfold to_node. change (HEARTBEAT_RATE * 2) with 60000000. destruct r. destruct (_ && _); reflexivity. Qed.
Lemma beat_newer n u : n_heartbeat u <= n_heartbeat n -> n_heartbeat (beat n u) = n_heartbeat n /\ n_cpu (beat n u) = n_cpu n /\
  n_taskcount (beat n u) = n_taskcount n /\ n_status (beat n u) = n_status n.
Proof. intros H. unfold heartbeat_modify. destruct (Z.ltb_spec (n_heartbeat n) (n_heartbeat u)); [lia|]. destruct u; repeat split. Qed.

(** ** Never backwards: whatever the clocks *)
Theorem C36_never_backwards : forall now s s' i r, step now s s' -> rows s i = Some r ->
  exists r', rows s' i = Some r' /\ n_heartbeat r <= n_heartbeat r'.
Proof.
  intros now s s' i r H Hr.
  destruct H as [now s n|now s n a b E N|now s n a b E|now s n a b E N|now s n a b u E U|now s n p a b E]; cbn; try (exists r; split; [assumption|lia]).
  - unfold upd. destruct (N.eqb_spec i (n_id n)) as [->|]; [congruence|]. exists r. split; [assumption|lia].
  - unfold upd. destruct (N.eqb_spec i (n_id n)) as [->|]; [|exists r; split; [assumption|lia]].
    assert (u = r) as -> by congruence. eexists. split; [reflexivity|].
    rewrite beat_heartbeat, to_node_heartbeat. lia.
Qed.

(** the stored row and the latest heartbeat: equal but for a status UP that is stale and was written back as OFFLINE *)
Definition row_of (now : time) (r n : node) : Prop :=
  n_heartbeat r = n_heartbeat n /\ n_cpu r = n_cpu n /\ n_taskcount r = n_taskcount n /\
  (n_status r = n_status n \/ (n_status r = NOffline /\ n_status n = NUp /\ n_heartbeat n < now - HEARTBEAT_RATE * 2)).
Lemma row_of_later now now' r n : now <= now' -> row_of now r n -> row_of now' r n.
Proof. intros L (A & B & C & [D|(D & E & F)]); repeat split; auto. right. repeat split; auto. lia. Qed.
Lemma row_of_to_node now r n : row_of now r n -> row_of now (to_node now r) n.
Proof.
  intros (A & B & C & D). unfold to_node. destruct (Z.ltb_spec (n_heartbeat r) (now - HEARTBEAT_RATE * 2)) as [L|L]; cbn [andb]; [|repeat split; assumption].
  destruct (n_status r) eqn:S; cbn [is_up]; try (split; [assumption|]; split; [assumption|]; split; [assumption|]; rewrite S; assumption).
  unfold row_of. cbn. split; [assumption|]. split; [assumption|]. split; [assumption|].
  destruct D as [D|(D & _)]; [|congruence]. right. split; [reflexivity|]. split; [congruence|unfold HEARTBEAT_RATE in L; lia].
Qed.
Lemma latest_app i hs n m : latest i hs m -> n_heartbeat n < n_heartbeat m \/ n_id n <> i -> latest i (hs ++ [n]) m.
Proof.
  intros (A & B & C) D. split; [apply in_app_iff; now left|]. split; [assumption|]. intros x Hx E.
  apply in_app_iff in Hx as [Hx|[<-|[]]]; [auto|]. destruct D; [lia|congruence].
Qed.
Lemma run_inv t s : run t s ->
  (forall i, match rows s i with Some r => exists n, latest i (applied s) n /\ row_of t r n | None => forall m, In m (applied s) -> n_id m <> i end).
Proof.
  induction 1 as [t|t now s s' _ IH H L]; [intros i; cbn; intros m []|]. intros i. specialize (IH i).
  destruct H as [now s n|now s n a b E N|now s n a b E|now s n a b E N|now s n a b u E U|now s n p a b E]; cbn;
    try (destruct (rows s i); [destruct IH as (m & A & B); exists m; split; [assumption|now apply (row_of_later t)]|assumption]).
  - unfold upd. destruct (N.eqb_spec i (n_id n)) as [->|Hn].
    + rewrite N in IH. exists n. split.
      * split; [apply in_app_iff; right; now left|]. split; [reflexivity|]. intros m Hm Em. apply in_app_iff in Hm as [Hm|[<-|[]]]; [destruct (IH m Hm Em)|lia].
      * repeat split; auto.
    + destruct (rows s i).
      * destruct IH as (m & A & B). exists m. split; [apply latest_app; [assumption|right; congruence]|now apply (row_of_later t)].
      * intros m Hm. apply in_app_iff in Hm as [Hm|[<-|[]]]; [now apply IH|congruence].
  - unfold upd. destruct (N.eqb_spec i (n_id n)) as [->|Hn].
    + rewrite U in IH. destruct IH as (m & A & B). apply (row_of_later t now) in B; [|assumption]. apply row_of_to_node in B.
      destruct (Z.ltb_spec (n_heartbeat n) (n_heartbeat (to_node now u))) as [K|K].
      * exists m. unfold heartbeat_modify. apply Z.ltb_lt in K as K'. rewrite K'. split; [|assumption]. apply latest_app; [assumption|]. left. destruct B as (B & _). lia.
      * exists n. split; [|destruct (beat_newer n _ K) as (? & ? & ? & ?); repeat split; auto]. split; [apply in_app_iff; right; now left|]. split; [reflexivity|].
        intros x Hx Ex. apply in_app_iff in Hx as [Hx|[<-|[]]]; [|lia]. destruct A as (_ & _ & A). specialize (A x Hx Ex). destruct B as (B & _). lia.
    + destruct (rows s i).
      * destruct IH as (m & A & B). exists m. split; [apply latest_app; [assumption|right; congruence]|now apply (row_of_later t)].
      * intros m Hm. apply in_app_iff in Hm as [Hm|[<-|[]]]; [now apply IH|congruence].
Qed.

(** C36: in every execution (any order, duplication, interleaving, failure) a node is reported, at any later time, with
    the time, CPU, task count of a latest heartbeat among those handled, and OFFLINE exactly if it said so or it said UP
    longer than two periods ago; it is unknown exactly if none was handled. *)
Theorem C36_reports_latest : forall t s i now, run t s -> t <= now ->
  match rows s i with
  | Some r => exists n, latest i (applied s) n /\ n_heartbeat (to_node now r) = n_heartbeat n /\ n_cpu (to_node now r) = n_cpu n /\
                n_taskcount (to_node now r) = n_taskcount n /\ reported_status now n (n_status (to_node now r))
  | None => forall m, In m (applied s) -> n_id m <> i
  end.
Proof.
  intros t s i now R L. pose proof (run_inv t s R i) as H. destruct (rows s i) as [r|]; [|assumption].
  destruct H as (n & A & B). exists n. split; [assumption|]. apply (row_of_later t now) in B; [|assumption].
  pose proof (row_of_to_node now r n B) as (C1 & C2 & C3 & _). split; [assumption|]. split; [assumption|]. split; [assumption|].
  destruct B as (B1 & _ & _ & B4). unfold reported_status. rewrite to_node_status, B1.
  change two_periods with 60000000. change (HEARTBEAT_RATE * 2) with 60000000 in B4.
  destruct (Z.ltb_spec (n_heartbeat n) (now - 60000000)) as [K|K]; cbn [andb].
  - destruct B4 as [B4|(B4 & B5 & B6)].
    + rewrite B4. destruct (n_status n) eqn:S; cbn [is_up].
      * split; [|now left]. split; [intros _; right; split; [reflexivity|lia]|reflexivity].
      * split; [|now right]. split; [discriminate|]. intros [X|(X & _)]; discriminate.
      * split; [|now right]. split; [intros _; now left|reflexivity].
    + rewrite B4, B5. cbn [is_up]. split; [|now left]. split; [intros _; right; split; [reflexivity|lia]|reflexivity].
  - destruct B4 as [B4|(B4 & B5 & B6)]; [|lia]. rewrite B4. split; [|now right].
    split; [intros X; now left|]. intros [X|(X & Y)]; [assumption|lia].
Qed.

(** ** One at a time: every heartbeat received is handled *)
(** heartbeat.go:21-43 run alone and without failures *)
Definition handle (now : time) (n : node) (f : id -> option node) : id -> option node :=
  match f (n_id n) with None => upd f (n_id n) n | Some r => upd f (n_id n) (beat n (to_node now r)) end.
Fixpoint handle_all (hs : list (time * node)) (f : id -> option node) : id -> option node :=
  match hs with [] => f | (now, n) :: hs => handle_all hs (handle now n f) end.
Inductive nondecreasing : time -> list (time * node) -> Prop :=
| nd_nil t : nondecreasing t []
| nd_cons t now n hs : t <= now -> nondecreasing now hs -> nondecreasing t ((now, n) :: hs).

Lemma handle_run t s now n : run t s -> busy s = [] -> t <= now -> run now (mkState (handle now n (rows s)) [] (applied s ++ [n])).
Proof.
  intros R B L.
  pose proof (run_step _ _ _ _ R (s_receive now s n) L) as R1. rewrite B in R1. cbn [app] in R1.
  set (s1 := mkState (rows s) [(n, Look)] (applied s)) in *.
  unfold handle. destruct (rows s (n_id n)) as [r|] eqn:F.
  - pose proof (run_step _ _ _ _ R1 (s_known now s1 n [] [] eq_refl) (Z.le_refl _)) as R2.
    set (s2 := mkState (rows s) [(n, Update)] (applied s)).
    exact (run_step _ _ _ _ R2 (s_update now s2 n [] [] r eq_refl F) (Z.le_refl _)).
  - pose proof (run_step _ _ _ _ R1 (s_unknown now s1 n [] [] eq_refl F) (Z.le_refl _)) as R2.
    set (s2 := mkState (rows s) [(n, Create)] (applied s)).
    exact (run_step _ _ _ _ R2 (s_create now s2 n [] [] eq_refl F) (Z.le_refl _)).
Qed.
Fixpoint last_clock (t : time) (hs : list (time * node)) : time := match hs with [] => t | (now, _) :: hs => last_clock now hs end.
Lemma handle_all_run hs : forall t s, nondecreasing t hs -> run t s -> busy s = [] ->
  run (last_clock t hs) (mkState (handle_all hs (rows s)) [] (applied s ++ map snd hs)).
Proof.
  induction hs as [|[now n] hs IH]; intros t s N R B; cbn [handle_all map snd last_clock].
  - rewrite app_nil_r. destruct s as [f b a]; cbn in *; subst b. exact R.
  - inversion N as [|? ? ? ? L N']; subst. pose proof (IH now _ N' (handle_run t s now n R B L) eq_refl) as H.
    cbn [rows applied] in H. rewrite <- app_assoc in H. exact H.
Qed.
Lemma last_clock_le hs : forall t, nondecreasing t hs -> t <= last_clock t hs.
Proof. induction hs as [|[now n] hs IH]; intros t H; cbn; [lia|]. inversion H as [|? ? ? ? L N]; subst. specialize (IH now N). lia. Qed.
(** whatever the order and duplication in which the heartbeats come, what is reported is the latest of them *)
Theorem C36_any_order : forall hs t i now, nondecreasing t hs -> last_clock t hs <= now ->
  match handle_all hs (fun _ => None) i with
  | Some r => exists n, latest i (map snd hs) n /\ n_heartbeat (to_node now r) = n_heartbeat n /\ n_cpu (to_node now r) = n_cpu n /\
                n_taskcount (to_node now r) = n_taskcount n /\ reported_status now n (n_status (to_node now r))
  | None => forall m, In m (map snd hs) -> n_id m <> i
  end.
Proof.
  intros hs t i now N L. pose proof (handle_all_run hs t start N (run_start t) eq_refl) as R.
  exact (C36_reports_latest _ _ i now R L).
Qed.

(** ** Active nodes: postgres.go:575-590 over the known identifiers (the order, by name, is left out) *)
Definition active_nodes (now : time) (f : id -> option node) (known : list id) : list node :=
  flat_map (fun i => match f i with Some r => if now - LAST_HEARTBEAT_TIMEOUT <? n_heartbeat r then [to_node now r] else [] | None => [] end) known.
Theorem C36_active : forall t s now known n, run t s -> t <= now ->
  In n (active_nodes now (rows s) known) <->
  exists i r, In i known /\ rows s i = Some r /\ n = to_node now r /\ now - 300 * 10 ^ 6 < n_heartbeat n.
Proof.
  intros t s now known n R L. unfold active_nodes, LAST_HEARTBEAT_TIMEOUT. rewrite in_flat_map.
  assert (T : forall r, n_heartbeat (to_node now r) = n_heartbeat r) by (intros r; apply to_node_heartbeat).
  split.
  - intros (i & Hi & H). destruct (rows s i) as [r|] eqn:F; [|contradiction]. destruct (Z.ltb_spec (now - 300 * 10 ^ 6) (n_heartbeat r)) as [K|K]; [|contradiction].
    destruct H as [<-|[]]. exists i, r. rewrite T. auto.
  - intros (i & r & Hi & F & -> & K). rewrite T in K. exists i. split; [assumption|]. rewrite F.
    destruct (Z.ltb_spec (now - 300 * 10 ^ 6) (n_heartbeat r)); [now left|lia].
Qed.

(** ** Where it fails *)
Definition hb (t : time) (s : nstatus) : node := mkNode 1%N "w" 0 0 t "x-1" s "h" 0 0 "v".
(** The first two heartbeats of a node handled at once: the later one may be lost (the node is reported as of the earlier). *)
Theorem C36_lost_first_refuted : exists s r, run 0 s /\ rows s 1%N = Some r /\ busy s = [] /\ n_heartbeat r = 5 /\
  (* both were received and the store never failed *)
  exists s1, run 0 s1 /\ busy s1 = [(hb 5 NUp, Create); (hb 6 NUp, Create)].
Proof.
  set (no := fun _ : id => @None node). set (a := hb 5 NUp). set (b := hb 6 NUp).
  assert (R1 : run 0 (mkState no [(a, Create); (b, Create)] [])).
  { pose proof (run_step _ _ _ _ (run_start 0) (s_receive 0 start a) (Z.le_refl _)) as A.
    pose proof (run_step _ _ _ _ A (s_receive 0 (mkState no [(a, Look)] []) b) (Z.le_refl _)) as B.
    pose proof (run_step _ _ _ _ B (s_unknown 0 (mkState no [(a, Look); (b, Look)] []) a [] [(b, Look)] eq_refl eq_refl) (Z.le_refl _)) as C.
    exact (run_step _ _ _ _ C (s_unknown 0 (mkState no [(a, Create); (b, Look)] []) b [(a, Create)] [] eq_refl eq_refl) (Z.le_refl _)). }
  pose proof (run_step _ _ _ _ R1 (s_create 0 (mkState no [(a, Create); (b, Create)] []) a [] [(b, Create)] eq_refl eq_refl) (Z.le_refl _)) as R2.
  pose proof (run_step _ _ _ _ R2 (s_error 0 (mkState (upd no 1%N a) [(b, Create)] [a]) b Create [] [] eq_refl) (Z.le_refl _)) as R3.
  exists (mkState (upd no 1%N a) [] [a]), a. split; [exact R3|]. split; [reflexivity|]. split; [reflexivity|]. split; [reflexivity|].
  eexists. split; [exact R1|reflexivity].
Qed.
(** A coordinator whose clock runs ahead, given an old heartbeat, writes OFFLINE over UP: coordinators with the right
    clock then report a node OFFLINE that sent UP just now. *)
Theorem C36_skewed_clock_refuted : exists s r now n, run_skewed s /\ rows s 1%N = Some r /\ latest 1%N (applied s) n /\
  n_status n = NUp /\ n_heartbeat n = now /\ n_status (to_node now r) = NOffline.
Proof.
  set (no := fun _ : id => @None node). set (a := hb 100 NUp). set (b := hb 90 NUp).
  pose proof (sk_step _ _ _ sk_start (s_receive 100 start a)) as A.
  pose proof (sk_step _ _ _ A (s_unknown 100 (mkState no [(a, Look)] []) a [] [] eq_refl eq_refl)) as B.
  pose proof (sk_step _ _ _ B (s_create 100 (mkState no [(a, Create)] []) a [] [] eq_refl eq_refl)) as C.
  pose proof (sk_step _ _ _ C (s_receive 100 (mkState (upd no 1%N a) [] [a]) b)) as D.
  pose proof (sk_step _ _ _ D (s_known 100 (mkState (upd no 1%N a) [(b, Look)] [a]) b [] [] eq_refl)) as E.
  pose proof (sk_step _ _ _ E (s_update (200 * 10 ^ 6) (mkState (upd no 1%N a) [(b, Update)] [a]) b [] [] a eq_refl eq_refl)) as F.
  eexists _, _, 100, a. split; [exact F|]. split; [reflexivity|]. split; [|repeat split; reflexivity].
  split; [now left|]. split; [reflexivity|]. cbn. intros m [<-|[<-|[]]]; cbn; lia.
Qed.

(** ** A case meeting the hypotheses: the same heartbeats in two orders, one duplicated *)
Definition beats := [(1, hb 10 NUp); (2, hb 30 NDown); (3, hb 20 NUp); (4, hb 30 NDown)].
Example heartbeats_at_work : nondecreasing 0 beats /\
  match handle_all beats (fun _ => None) 1%N with Some r => n_heartbeat r = 30 /\ n_status r = NDown | None => False end.
Proof. split; [unfold beats; repeat (constructor; [lia|]); constructor|]. vm_compute. auto. Qed.

Print Assumptions C36_never_backwards.
Print Assumptions C36_reports_latest.
Print Assumptions C36_any_order.
Print Assumptions C36_active.
Print Assumptions C36_lost_first_refuted.
Print Assumptions C36_skewed_clock_refuted.
