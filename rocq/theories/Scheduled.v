(** C51 and the schedule part of C56: scheduled jobs.
    internal/coordinator/handlers/schedule.go, internal/coordinator/api/api.go:544-726,
    datastore/postgres/postgres.go:1272-1576, internal/coordinator/coordinator.go:294-303, input/job.go:146-196.

    Any number of coordinators.  An event published on the topic "scheduled.job" reaches every running coordinator once
    and in order (duplication is a separate step, used only for the refuted witnesses).  A tick is one firing time of a
    cron expression; every entry for it on every coordinator tries to take the lock named after the scheduled job and the
    holder keeps it for at least ten seconds (schedule.go:36-47), so that all later attempts of the same tick fail:
    coordinators are assumed to fire within ten seconds of each other. *)
From Verif Require Import Types Handlers.
Open Scope string_scope.
Open Scope list_scope.
Open Scope Z_scope.

(* ------------------------------------------------------------------ *)
(** * Model *)
(** job.go:58-76 without the state *)
Record sdef := mkSDef {
  sd_name : string; sd_description : string; sd_cron : string; sd_inputs : smap; sd_tasks : list task;
  sd_createdby : option user; sd_defaults : option jobdefaults; sd_autodelete : option autodelete;
  sd_webhooks : list webhook; sd_permissions : list permission; sd_tags : list string; sd_secrets : smap;
  sd_output : string }.
(** job.go:21-26; the table scheduled_jobs *)
Inductive sstate := SActive | SPaused.
Definition sstate_eqb (a b : sstate) : bool := match a, b with SActive, SActive | SPaused, SPaused => true | _, _ => false end.
Definition store := list (id * (sstate * sdef)).
Definition event := (id * sstate)%type.

(** schedule.go:24-30: [c_entries] are the live entries of gocron (handle and scheduled job), [c_map] the handler's map;
    [c_pending] the events on their way to this coordinator *)
Record coord := mkCoord { c_entries : list (N * id); c_map : list (id * N); c_next : N; c_pending : list event }.
Record sys := mkSys { y_store : store; y_coords : list coord; y_fresh : N; y_clock : time; y_jobs : list job }.

Fixpoint lookup {V} (i : N) (l : list (N * V)) : option V :=
  match l with [] => None | (k, v) :: l => if N.eqb k i then Some v else lookup i l end.
Definition remove {V} (i : N) (l : list (N * V)) : list (N * V) := filter (fun p => negb (N.eqb (fst p) i)) l.
Definition put {V} (i : N) (v : V) (l : list (N * V)) : list (N * V) := (i, v) :: remove i l.
Definition set_state (i : id) (s : sstate) (st : store) : store :=
  map (fun p => if N.eqb (fst p) i then (fst p, (s, snd (snd p))) else p) st.

Section Scheduled.
(** gocron parses the cron expression *)
Variable cron_parses : string -> bool.

(** schedule.go:101-160; [None] is the returned error.  The expression comes with the event. *)
Definition handle_active (i : id) (cron : string) (c : coord) : option coord :=
  if cron_parses cron
  then Some (mkCoord (c_entries c ++ [(c_next c, i)]) (put i (c_next c) (c_map c)) (N.succ (c_next c)) (c_pending c))
  else None.
(** schedule.go:162-178 *)
Definition handle_paused (i : id) (c : coord) : option coord :=
  match lookup i (c_map c) with
  | None => None
  | Some h => Some (mkCoord (remove h (c_entries c)) (remove i (c_map c)) (c_next c) (c_pending c))
  end.
(** schedule.go:90-99 *)
Definition handle (i : id) (s : sstate) (cron : string) (c : coord) : option coord :=
  match s with SActive => handle_active i cron c | SPaused => handle_paused i c end.

(** schedule.go:61-88: a coordinator starts; [None]: it does not *)
Fixpoint activate_all (st : store) (c : coord) : option coord :=
  match st with
  | [] => Some c
  | (i, (SActive, d)) :: st => match handle_active i (sd_cron d) c with Some c => activate_all st c | None => None end
  | (_, (SPaused, _)) :: st => activate_all st c
  end.
Definition start (st : store) : option coord := activate_all st (mkCoord [] [] 0%N []).

(** schedule.go:108-142: the job made at a tick (Defaults are not copied; Context.Job is not set) *)
Definition instance (i : id) (n : time) (sid : id) (d : sdef) : job :=
  mkJob i noid (sd_name d) (sd_description d) (sd_tags d) JPending n (sd_createdby d) None None None (sd_tasks d) [] 0
    (sd_inputs d) (mkCtx [] (sd_inputs d) (sd_secrets d) []) (Z.of_nat (length (sd_tasks d))) (sd_output d) "" ""
    None (sd_webhooks d) (sd_permissions d) (sd_autodelete d) None (sd_secrets d) 0 (Some (mkSchedule sid (sd_cron d))).

(** One entry for [sid] fires: the lock is taken unless [locked] (gocron drops the run when it is not obtained); then
    schedule.go:108-150.  The record is read again; its state is not looked at.  Datastore and broker calls succeed here
    (see [create_fails] below). *)
Definition fire (sid : id) (a : bool * sys) (e : N * id) : bool * sys :=
  let (locked, y) := a in
  if negb (N.eqb (snd e) sid) then a
  else if locked then a
  else (true, match lookup sid (y_store y) with
              | None => y
              | Some (_, d) => mkSys (y_store y) (y_coords y) (N.succ (y_fresh y)) (y_clock y)
                                 (y_jobs y ++ [instance (y_fresh y) (y_clock y) sid d])
              end).
Definition all_entries (y : sys) : list (N * id) := flat_map c_entries (y_coords y).
Definition tick (sid : id) (y : sys) : sys := snd (fold_left (fire sid) (all_entries y) (false, y)).

Definition broadcast (e : event) (cs : list coord) : list coord :=
  map (fun c => mkCoord (c_entries c) (c_map c) (c_next c) (c_pending c ++ [e])) cs.

(** ** The API.  Each call is one step here (the calls on one scheduled job are made one after the other); the result is
    whether the call was accepted. *)
(** api.go:567-591 for an accepted definition (the row is ACTIVE, input/job.go:160) *)
Definition api_create (d : sdef) (y : sys) : sys * bool :=
  let i := y_fresh y in
  (mkSys (y_store y ++ [(i, (SActive, d))]) (broadcast (i, SActive) (y_coords y)) (N.succ i) (y_clock y) (y_jobs y), true).
(** api.go:657-677, 679-699 *)
Definition api_toggle (want set : sstate) (i : id) (y : sys) : sys * bool :=
  match lookup i (y_store y) with
  | None => (y, false)
  | Some (s, _) =>
      if sstate_eqb s want
      then (mkSys (set_state i set (y_store y)) (broadcast (i, set) (y_coords y)) (y_fresh y) (y_clock y) (y_jobs y), true)
      else (y, false)
  end.
Definition api_pause := api_toggle SActive SPaused.
Definition api_resume := api_toggle SPaused SActive.
(** api.go:701-726; the instances go too (postgres.go:1568-1576) *)
Definition api_delete (i : id) (y : sys) : sys * bool :=
  match lookup i (y_store y) with
  | None => (y, false)
  | Some (s, _) =>
      (mkSys (remove i (y_store y)) (match s with SActive => broadcast (i, SPaused) (y_coords y) | SPaused => y_coords y end)
         (y_fresh y) (y_clock y)
         (filter (fun j => negb (match j_schedule j with Some sc => N.eqb (sc_id sc) i | None => false end)) (y_jobs y)), true)
  end.

(** coordinator.go:294-303: the next event is handled; an error is logged.  [cron] is the expression the event carries. *)
Definition take (cron : id -> string) (c : coord) : coord :=
  match c_pending c with
  | [] => c
  | (i, s) :: r =>
      let c := mkCoord (c_entries c) (c_map c) (c_next c) r in
      match handle i s (cron i) c with Some c => c | None => c end
  end.
Fixpoint upd {A} (k : nat) (f : A -> A) (l : list A) : list A :=
  match l, k with [], _ => [] | x :: l, O => f x :: l | x :: l, S k => x :: upd k f l end.

Variable crons : id -> string.   (* the expression of each scheduled job; it never changes *)

Inductive slabel := LCreate | LPause (i : id) | LResume (i : id) | LDelete (i : id) | LTake (k : nat) | LTick (i : id)
                  | LStart | LCrash (k : nat) | LDuplicate (k : nat) | LUnsaid (i : id) | LTime (d : Z).
Inductive sstep : sys -> slabel -> sys -> Prop :=
| s_create y d : sd_cron d = crons (y_fresh y) -> sstep y LCreate (fst (api_create d y))
| s_pause y i : sstep y (LPause i) (fst (api_pause i y))
| s_resume y i : sstep y (LResume i) (fst (api_resume i y))
| s_delete y i : sstep y (LDelete i) (fst (api_delete i y))
| s_take y k : sstep y (LTake k) (mkSys (y_store y) (upd k (take crons) (y_coords y)) (y_fresh y) (y_clock y) (y_jobs y))
| s_tick y i : sstep y (LTick i) (tick i y)
| s_start y c : start (y_store y) = Some c -> sstep y LStart (mkSys (y_store y) (y_coords y ++ [c]) (y_fresh y) (y_clock y) (y_jobs y))
| s_crash y k : sstep y (LCrash k) (mkSys (y_store y) (firstn k (y_coords y) ++ skipn (S k) (y_coords y)) (y_fresh y) (y_clock y) (y_jobs y))
| s_time y d : 0 <= d -> sstep y (LTime d) (mkSys (y_store y) (y_coords y) (y_fresh y) (y_clock y + d) (y_jobs y))
(** not part of the clean histories: an event delivered twice *)
| s_duplicate y k c e r : nth_error (y_coords y) k = Some c -> c_pending c = e :: r ->
    sstep y (LDuplicate k) (mkSys (y_store y) (upd k (fun c => mkCoord (c_entries c) (c_map c) (c_next c) (e :: c_pending c)) (y_coords y)) (y_fresh y) (y_clock y) (y_jobs y))
(** ... and a pause whose event was not published (broker failure or crash between api.go:668 and 673) *)
| s_unsaid y i d : lookup i (y_store y) = Some (SActive, d) ->
    sstep y (LUnsaid i) (mkSys (set_state i SPaused (y_store y)) (y_coords y) (y_fresh y) (y_clock y) (y_jobs y)).

Inductive sexec : sys -> list slabel -> sys -> Prop :=
| sx_nil y : sexec y [] y
| sx_snoc y tr y1 l y2 : sexec y tr y1 -> sstep y1 l y2 -> sexec y (tr ++ [l]) y2.
Definition sinit : sys := mkSys [] [] 1%N 0 [].
Definition clean (l : slabel) : Prop := match l with LDuplicate _ | LUnsaid _ => False | _ => True end.
(** states after clean histories *)
Definition sreach (y : sys) : Prop := exists tr, sexec sinit tr y /\ Forall clean tr.

(* ------------------------------------------------------------------ *)
(** * Specification *)
Definition state_of (y : sys) (i : id) : option sstate := match lookup i (y_store y) with Some (s, _) => Some s | None => None end.
(** how many cron entries coordinator [c] has for scheduled job [i] *)
Definition entries_for (c : coord) (i : id) : list (N * id) := filter (fun e : N * id => N.eqb (snd e) i) (c_entries c).
(** no event about [i] is on its way to [c] *)
Definition settled (c : coord) (i : id) : Prop := forall s, ~ In (i, s) (c_pending c).

(* ------------------------------------------------------------------ *)
(** * Proofs *)
(** what a coordinator's view of [i] will be when the pending events are handled *)
Fixpoint catch_up (i : id) (b : bool) (l : list event) : Prop * bool :=
  match l with
  | [] => (True, b)
  | (k, s) :: l =>
      if N.eqb k i
      then let (P, r) := catch_up i (match s with SActive => true | SPaused => false end) l in
           ((match s with SActive => b = false | SPaused => b = true end) /\ P, r)
      else catch_up i b l
  end.
Definition is_active (y : sys) (i : id) : bool := match state_of y i with Some SActive => true | _ => false end.

(** [b]: the coordinator has processed an activation of [i] not followed by a pause (the entry is there if the cron parses) *)
Record good (c : coord) : Prop := {
  g_map : forall i h, lookup i (c_map c) = Some h <-> In (h, i) (c_entries c);
  g_ids : NoDup (map snd (c_entries c));
  g_handles : NoDup (map fst (c_entries c));
  g_next : forall h i, In (h, i) (c_entries c) -> (h < c_next c)%N }.
Definition has (c : coord) (i : id) : bool := match lookup i (c_map c) with Some _ => true | None => false end.
(** view of [i] at [c]: for unparsable expressions there is never an entry; the alternation of events is then tracked by [v] *)
Definition tracks (y : sys) (c : coord) : Prop := forall i, exists v,
  has c i = v && cron_parses (crons i) /\ fst (catch_up i v (c_pending c)) /\ snd (catch_up i v (c_pending c)) = is_active y i.
Record sinv (y : sys) : Prop := {
  i_good : Forall good (y_coords y);
  i_tracks : Forall (tracks y) (y_coords y);
  i_keys : NoDup (map fst (y_store y));
  i_fresh : forall i, In i (map fst (y_store y)) -> (i < y_fresh y)%N;
  i_cron : forall i s d, In (i, (s, d)) (y_store y) -> sd_cron d = crons i;
  i_pend : forall c i s, In c (y_coords y) -> In (i, s) (c_pending c) -> (i < y_fresh y)%N }.

Lemma lookup_In {V} i (l : list (N * V)) v : lookup i l = Some v -> In (i, v) l.
Proof. induction l as [|[k w] l IH]; cbn; [discriminate|]. destruct (N.eqb_spec k i) as [->|]; [intros E; injection E as <-; auto|auto]. Qed.
Lemma lookup_None {V} i (l : list (N * V)) : lookup i l = None <-> ~ In i (map fst l).
Proof.
  induction l as [|[k w] l IH]; cbn; [tauto|]. destruct (N.eqb_spec k i) as [->|Hn]; [split; [discriminate|tauto]|]. rewrite IH. intuition.
Qed.
Lemma lookup_nodup {V} i (l : list (N * V)) v : NoDup (map fst l) -> In (i, v) l -> lookup i l = Some v.
Proof.
  induction l as [|[k w] l IH]; cbn; [tauto|]. intros HN [E|Hin]; inversion HN; subst.
  - injection E as -> ->. now rewrite N.eqb_refl.
  - destruct (N.eqb_spec k i) as [->|]; [|auto]. exfalso. apply H1. change i with (fst (i, v)). now apply in_map.
Qed.
Lemma lookup_remove {V} i k (l : list (N * V)) : lookup i (remove k l) = if N.eqb i k then None else lookup i l.
Proof.
  induction l as [|[h w] l IH]; cbn [lookup]; [now destruct (N.eqb i k)|].
  change (remove k ((h, w) :: l)) with (if negb (N.eqb h k) then (h, w) :: remove k l else remove k l).
  destruct (N.eqb_spec h k) as [->|Hn]; cbn [negb lookup].
  - rewrite IH. destruct (N.eqb_spec i k) as [->|Hn]; [reflexivity|]. destruct (N.eqb_spec k i); congruence.
  - rewrite IH. destruct (N.eqb_spec h i) as [->|]; [destruct (N.eqb_spec i k); congruence|reflexivity].
Qed.
Lemma lookup_put {V} i k (v : V) l : lookup i (put k v l) = if N.eqb i k then Some v else lookup i l.
Proof.
  unfold put. cbn [lookup]. rewrite lookup_remove. destruct (N.eqb_spec k i) as [->|Hn]; [now rewrite N.eqb_refl|]. destruct (N.eqb_spec i k); congruence.
Qed.
Lemma In_remove {V} (x : N * V) k l : In x (remove k l) <-> In x l /\ fst x <> k.
Proof. unfold remove. rewrite filter_In, negb_true_iff, N.eqb_neq. tauto. Qed.
Lemma lookup_set i k s st : lookup i (set_state k s st) =
  match lookup i st with Some (s0, d) => Some (if N.eqb i k then s else s0, d) | None => None end.
Proof.
  induction st as [|[h [s0 d]] st IH]; [reflexivity|].
  change (set_state k s ((h, (s0, d)) :: st)) with ((if N.eqb h k then (h, (s, d)) else (h, (s0, d))) :: set_state k s st). cbn [lookup].
  destruct (N.eqb_spec h k) as [->|Hn]; cbn [lookup].
  - destruct (N.eqb_spec k i) as [->|]; [now rewrite N.eqb_refl|exact IH].
  - destruct (N.eqb_spec h i) as [->|]; [|exact IH]. destruct (N.eqb_spec i k); congruence.
Qed.
Lemma keys_set k s st : map fst (set_state k s st) = map fst st.
Proof. unfold set_state. rewrite map_map. apply map_ext. intros [h w]. cbn. now destruct (N.eqb h k). Qed.

Lemma catch_up_app i l : forall b k s,
  (fst (catch_up i b (l ++ [(k, s)])) <-> fst (catch_up i b l) /\ (k = i -> match s with SActive => snd (catch_up i b l) = false | SPaused => snd (catch_up i b l) = true end)) /\
  snd (catch_up i b (l ++ [(k, s)])) = if N.eqb k i then match s with SActive => true | SPaused => false end else snd (catch_up i b l).
Proof.
  induction l as [|[k0 s0] l IH]; intros b k s; cbn.
  - destruct (N.eqb_spec k i) as [->|Hn]; cbn; [|tauto]. split; [|reflexivity]. destruct s; tauto.
  - destruct (N.eqb_spec k0 i) as [->|Hn]; [|apply IH].
    specialize (IH (match s0 with SActive => true | SPaused => false end) k s).
    destruct (catch_up i _ (l ++ [(k, s)])) as [P r]. destruct (catch_up i _ l) as [P' r']. cbn in *. destruct IH as [IH1 IH2]. rewrite IH1. tauto.
Qed.
Lemma catch_up_none i b l : (forall s, ~ In (i, s) l) -> fst (catch_up i b l) /\ snd (catch_up i b l) = b.
Proof.
  induction l as [|[k s] l IH]; cbn; intros H; [auto|]. destruct (N.eqb_spec k i) as [->|Hn]; [destruct (H s); auto|]. apply IH. intros s' Hs. apply (H s'). auto.
Qed.

Lemma good_has c i : good c -> has c i = true <-> exists h, In (h, i) (c_entries c).
Proof.
  intros G. unfold has. destruct (lookup i (c_map c)) as [h|] eqn:E.
  - split; [intros _; exists h; now apply (g_map _ G)|reflexivity].
  - split; [discriminate|]. intros (h & H). apply (g_map _ G) in H. congruence.
Qed.
Lemma NoDup_snoc {A} (l : list A) x : NoDup l -> ~ In x l -> NoDup (l ++ [x]).
Proof.
  induction l as [|y l IH]; cbn; intros H1 H2; [constructor; [auto|constructor]|]. inversion H1; subst. constructor.
  - rewrite in_app_iff. cbn. intuition.
  - apply IH; auto.
Qed.
Lemma NoDup_filter_map {A B} (f : A -> bool) (g : A -> B) l : NoDup (map g l) -> NoDup (map g (filter f l)).
Proof.
  induction l as [|y l IH]; cbn; intros H; [constructor|]. inversion H; subst. destruct (f y); cbn; [|auto]. constructor; [|auto].
  intros Hin. apply H2. apply in_map_iff in Hin as (z & <- & Hz). apply filter_In in Hz as [Hz _]. now apply in_map.
Qed.

Lemma activate_good i cron c c' : good c -> has c i = false -> handle_active i cron c = Some c' ->
  good c' /\ c_pending c' = c_pending c /\ cron_parses cron = true /\ (forall k, has c' k = N.eqb k i || has c k) /\
  c_entries c' = c_entries c ++ [(c_next c, i)].
Proof.
  intros G Hh H. unfold handle_active in H. destruct (cron_parses cron); [|discriminate]. injection H as <-.
  assert (Hno : forall h, ~ In (h, i) (c_entries c)).
  { intros h Hin. assert (has c i = true) by (apply good_has; eauto). congruence. }
  split.
  - constructor; cbn [c_entries c_map c_next].
    + intros k h. rewrite lookup_put, in_app_iff. cbn. destruct (N.eqb_spec k i) as [->|Hn].
      * split; [intros E; injection E as <-; auto|]. intros [Hin|[E|[]]]; [now apply Hno in Hin|congruence].
      * rewrite (g_map _ G). split; [auto|]. intros [Hin|[E|[]]]; [auto|congruence].
    + rewrite map_app. apply NoDup_snoc; [apply (g_ids _ G)|]. cbn. intros Hin. apply in_map_iff in Hin as ([h k] & E & Hin). cbn in E. subst. now apply Hno in Hin.
    + rewrite map_app. apply NoDup_snoc; [apply (g_handles _ G)|]. cbn. intros Hin. apply in_map_iff in Hin as ([h k] & E & Hin). cbn in E. subst.
      apply (g_next _ G) in Hin. lia.
    + intros h k Hin. apply in_app_or in Hin as [Hin|[E|[]]]; [apply (g_next _ G) in Hin; lia|]. injection E as <- <-. lia.
  - cbn. repeat split. intros k. unfold has. cbn [c_map]. rewrite lookup_put. now destruct (N.eqb k i).
Qed.
Lemma pause_good i c c' : good c -> handle_paused i c = Some c' ->
  good c' /\ c_pending c' = c_pending c /\ has c i = true /\ (forall k, has c' k = negb (N.eqb k i) && has c k) /\
  (forall e, In e (c_entries c') <-> In e (c_entries c) /\ snd e <> i).
Proof.
  intros G H. unfold handle_paused in H. destruct (lookup i (c_map c)) as [h|] eqn:E; [|discriminate]. injection H as <-.
  assert (Hin : In (h, i) (c_entries c)) by now apply (g_map _ G).
  assert (HE : forall e, In e (remove h (c_entries c)) <-> In e (c_entries c) /\ snd e <> i).
  { intros [h' k]. rewrite In_remove. cbn. split; intros [H1 H2]; (split; [exact H1|]); intros ->.
    - apply (g_map _ G) in H1. congruence.
    - pose proof (lookup_nodup _ _ _ (g_handles _ G) H1) as L1. pose proof (lookup_nodup _ _ _ (g_handles _ G) Hin) as L2. congruence. }
  split; [|split; [reflexivity|split; [unfold has; now rewrite E|split; [|exact HE]]]].
  - constructor; cbn [c_entries c_map c_next].
    + intros k h'. rewrite lookup_remove, HE. cbn. destruct (N.eqb_spec k i) as [->|Hn]; [split; [discriminate|tauto]|]. rewrite (g_map _ G). tauto.
    + apply NoDup_filter_map, (g_ids _ G).
    + apply NoDup_filter_map, (g_handles _ G).
    + intros h' k Hk. apply HE in Hk as [Hk _]. now apply (g_next _ G) in Hk.
  - intros k. unfold has. cbn [c_map]. rewrite lookup_remove. now destruct (N.eqb k i).
Qed.

Definition act_in (st : store) (i : id) : bool := match lookup i st with Some (SActive, _) => true | _ => false end.
Lemma activate_all_good st : forall c c', good c -> NoDup (map fst st) -> (forall i, In i (map fst st) -> has c i = false) ->
  (forall i s d, In (i, (s, d)) st -> sd_cron d = crons i) ->
  activate_all st c = Some c' ->
  good c' /\ c_pending c' = c_pending c /\ (forall i, has c' i = has c i || act_in st i) /\ (forall i, act_in st i = true -> cron_parses (crons i) = true).
Proof.
  induction st as [|[i [s d]] st IH]; intros c c' G HN HH HC H; cbn in *.
  - injection H as <-. repeat split; auto; try apply G. + intros i. now rewrite orb_false_r. + discriminate.
  - inversion HN as [|? ? HN1 HN2]; subst. destruct s.
    + destruct (handle_active i (sd_cron d) c) as [c1|] eqn:E; [|discriminate].
      destruct (activate_good _ _ _ _ G (HH i (or_introl eq_refl)) E) as (G1 & P1 & C1 & A1 & _).
      destruct (IH c1 c' G1 HN2) as (G2 & P2 & A2 & C2); [|eauto|exact H|].
      { intros k Hk. rewrite A1, (HH k) by auto. destruct (N.eqb_spec k i) as [->|]; [contradiction|reflexivity]. }
      split; [exact G2|]. split; [congruence|]. split.
      * intros k. rewrite A2, A1. unfold act_in. cbn. rewrite (N.eqb_sym i k). destruct (N.eqb_spec k i) as [->|]; cbn; [now rewrite orb_true_r|reflexivity].
      * intros k. unfold act_in. cbn. destruct (N.eqb_spec i k) as [->|]; [intros _; rewrite <- (HC k SActive d); auto|apply C2].
    + destruct (IH c c' G HN2) as (G2 & P2 & A2 & C2); [auto|eauto|exact H|].
      split; [exact G2|]. split; [exact P2|]. split.
      * intros k. rewrite A2. unfold act_in. cbn. destruct (N.eqb_spec i k) as [->|]; [|reflexivity].
        destruct (lookup k st) eqn:L; [|reflexivity]. apply lookup_In in L. exfalso. apply HN1. change k with (fst (k, p)). now apply in_map.
      * intros k. unfold act_in. cbn. destruct (N.eqb_spec i k) as [->|]; [discriminate|apply C2].
Qed.
Lemma good_empty : good (mkCoord [] [] 0%N []).
Proof. constructor; cbn; try constructor; try tauto. discriminate. Qed.

Lemma is_active_in y i : is_active y i = act_in (y_store y) i.
Proof. unfold is_active, state_of, act_in. destruct (lookup i (y_store y)) as [[s d]|]; [destruct s|]; reflexivity. Qed.

(** broadcasting one event *)
Lemma tracks_broadcast y y' c k s :
  tracks y c ->
  (forall i, is_active y' i = if N.eqb k i then match s with SActive => true | SPaused => false end else is_active y i) ->
  is_active y k = match s with SActive => false | SPaused => true end ->
  tracks y' (mkCoord (c_entries c) (c_map c) (c_next c) (c_pending c ++ [(k, s)])).
Proof.
  intros T HA HK i. destruct (T i) as (v & H1 & H2 & H3). exists v. split; [exact H1|]. cbn [c_pending].
  destruct (catch_up_app i (c_pending c) v k s) as [E1 E2]. split.
  - apply E1. split; [exact H2|]. intros ->. rewrite H3, HK. now destruct s.
  - etransitivity; [exact E2|]. rewrite HA, H3. reflexivity.
Qed.
Lemma tracks_same y y' c : tracks y c -> (forall i, is_active y' i = is_active y i) -> tracks y' c.
Proof. intros T H i. destruct (T i) as (v & H1 & H2 & H3). exists v. now rewrite H. Qed.

Lemma take_inv y c : good c -> tracks y c -> good (take crons c) /\ tracks y (take crons c) /\
  (forall e, In e (c_pending (take crons c)) -> In e (c_pending c)).
Proof.
  intros G T. unfold take. destruct (c_pending c) as [|[i s] r] eqn:EP; [rewrite EP; auto|].
  set (c0 := mkCoord (c_entries c) (c_map c) (c_next c) r).
  assert (G0 : good c0) by (destruct G; constructor; auto).
  assert (H0 : forall k, has c0 k = has c k) by reflexivity.
  assert (Sub : forall e, In e r -> In e (c_pending c)) by (rewrite EP; cbn; auto).
  destruct (T i) as (v & V1 & V2 & V3). rewrite EP in V2, V3. cbn [catch_up] in V2, V3. rewrite N.eqb_refl in V2, V3.
  assert (Tk : forall k, k <> i -> exists v0, has c k = v0 && cron_parses (crons k) /\ fst (catch_up k v0 r) /\ snd (catch_up k v0 r) = is_active y k).
  { intros k Hk. destruct (T k) as (v0 & W1 & W2 & W3). exists v0. rewrite EP in W2, W3. cbn [catch_up] in W2, W3.
    destruct (N.eqb_spec i k); [congruence|]. auto. }
  destruct s; cbn [handle].
  - assert (Ev : v = false) by (destruct (catch_up i true r); cbn in V2; tauto). subst v. cbn in V1.
    destruct (handle_active i (crons i) c0) as [c1|] eqn:E.
    + destruct (activate_good _ _ _ _ G0 V1 E) as (G1 & P1 & C1 & A1 & _). split; [exact G1|]. rewrite P1. split; [|rewrite EP in Sub; exact Sub].
      intros k. destruct (N.eq_dec k i) as [->|Hk].
      * exists true. rewrite P1, A1, N.eqb_refl, C1. cbn. destruct (catch_up i true r); cbn in *. tauto.
      * destruct (Tk k Hk) as (v0 & W1 & W2 & W3). exists v0. rewrite P1, A1. destruct (N.eqb_spec k i); [congruence|]. cbn. rewrite H0. auto.
    + split; [exact G0|]. split; [|rewrite EP in Sub; exact Sub]. unfold handle_active in E. destruct (cron_parses (crons i)) eqn:C; [discriminate|].
      intros k. destruct (N.eq_dec k i) as [->|Hk].
      * exists true. rewrite H0, V1, C. cbn. destruct (catch_up i true r); cbn in *. tauto.
      * destruct (Tk k Hk) as (v0 & W1 & W2 & W3). exists v0. rewrite H0. auto.
  - assert (Ev : v = true) by (destruct (catch_up i false r); cbn in V2; tauto). subst v. cbn in V1.
    destruct (handle_paused i c0) as [c1|] eqn:E.
    + destruct (pause_good _ _ _ G0 E) as (G1 & P1 & C1 & A1 & _). split; [exact G1|]. rewrite P1. split; [|rewrite EP in Sub; exact Sub].
      intros k. destruct (N.eq_dec k i) as [->|Hk].
      * exists false. rewrite P1, A1, N.eqb_refl. cbn. destruct (catch_up i false r); cbn in *. tauto.
      * destruct (Tk k Hk) as (v0 & W1 & W2 & W3). exists v0. rewrite P1, A1. destruct (N.eqb_spec k i); [congruence|]. cbn. rewrite H0. auto.
    + split; [exact G0|]. split; [|rewrite EP in Sub; exact Sub].
      assert (N0 : has c i = false) by (unfold has; unfold handle_paused in E; cbn in E; destruct (lookup i (c_map c)); [discriminate|reflexivity]).
      intros k. destruct (N.eq_dec k i) as [->|Hk].
      * exists false. rewrite H0, N0. cbn. destruct (catch_up i false r); cbn in *. tauto.
      * destruct (Tk k Hk) as (v0 & W1 & W2 & W3). exists v0. rewrite H0. auto.
Qed.

Lemma in_upd {A} (f : A -> A) l : forall k x, In x (upd k f l) -> In x l \/ exists z, In z l /\ x = f z.
Proof.
  induction l as [|z l IH]; intros [|k] x; cbn; try tauto.
  - intros [<-|H]; eauto. - intros [<-|H]; [auto|]. apply IH in H as [H|(z' & H & ->)]; eauto.
Qed.

(** ** Ticks *)
Lemma fire_locked sid es y : fold_left (fire sid) es (true, y) = (true, y).
Proof. induction es as [|e es IH]; cbn; [reflexivity|]. destruct (negb _); exact IH. Qed.
Definition fired (sid : id) (y : sys) : sys := match lookup sid (y_store y) with
              | None => y
              | Some (_, d) => mkSys (y_store y) (y_coords y) (N.succ (y_fresh y)) (y_clock y)
                                 (y_jobs y ++ [instance (y_fresh y) (y_clock y) sid d])
              end.
Lemma fire_fold sid es y : fold_left (fire sid) es (false, y) =
  if existsb (fun e : N * id => N.eqb (snd e) sid) es then (true, fired sid y) else (false, y).
Proof.
  induction es as [|e es IH]; cbn; [reflexivity|]. destruct (N.eqb (snd e) sid); cbn; [apply fire_locked|exact IH].
Qed.
Lemma tick_eq sid y : tick sid y = if existsb (fun e : N * id => N.eqb (snd e) sid) (all_entries y) then fired sid y else y.
Proof. unfold tick. rewrite fire_fold. now destruct (existsb _ _). Qed.

Lemma sinv_step y l y' : sinv y -> sstep y l y' -> clean l -> sinv y'.
Proof.
  intros [HG HT HK HF HC HP] Hs Hc. destruct Hs; try contradiction Hc.
  - (* create *)
    cbn. assert (Hno : ~ In (y_fresh y) (map fst (y_store y))) by (intros Hin; apply HF in Hin; lia).
    assert (HL : forall i, lookup i (y_store y ++ [(y_fresh y, (SActive, d))]) = if N.eqb (y_fresh y) i then Some (SActive, d) else lookup i (y_store y)).
    { intros i. clear - Hno. induction (y_store y) as [|[k w] st IH]; cbn; [reflexivity|]. cbn in Hno.
      destruct (N.eqb_spec k i) as [->|]; [destruct (N.eqb_spec (y_fresh y) i); [subst; tauto|reflexivity]|]. apply IH. tauto. }
    constructor; cbn.
    + unfold broadcast. rewrite Forall_map. eapply Forall_impl; [|exact HG]. intros c G. destruct G; constructor; auto.
    + unfold broadcast. rewrite Forall_map. eapply Forall_impl; [|exact HT]. intros c T. eapply tracks_broadcast; [exact T| |].
      * intros i. rewrite !is_active_in. unfold act_in. cbn. rewrite HL. now destruct (N.eqb (y_fresh y) i).
      * rewrite is_active_in. unfold act_in. apply lookup_None in Hno. now rewrite Hno.
    + rewrite map_app. now apply NoDup_snoc.
    + intros i Hi. rewrite map_app in Hi. apply in_app_or in Hi as [Hi|[<-|[]]]; [apply HF in Hi; lia|cbn; lia].
    + intros i s d' Hi. apply in_app_or in Hi as [Hi|[E|[]]]; [eauto|]. injection E as <- <- <-. assumption.
    + intros c i s Hcc Hi. unfold broadcast in Hcc; apply in_map_iff in Hcc as (c0 & <- & Hc0). cbn in Hi. apply in_app_or in Hi as [Hi|[E|[]]].
      * specialize (HP _ _ _ Hc0 Hi). lia. * injection E as <- <-. lia.
  - (* pause *)
    unfold api_pause, api_toggle. destruct (lookup i (y_store y)) as [[s d]|] eqn:E; [|constructor; auto].
    destruct s; cbn; [|constructor; auto]. constructor; cbn; auto.
    + unfold broadcast. rewrite Forall_map. eapply Forall_impl; [|exact HG]. intros c G. destruct G; constructor; auto.
    + unfold broadcast. rewrite Forall_map. eapply Forall_impl; [|exact HT]. intros c T. eapply tracks_broadcast; [exact T| |].
      * intros k. rewrite !is_active_in. unfold act_in. cbn. rewrite lookup_set. rewrite (N.eqb_sym i k).
        destruct (N.eqb_spec k i) as [->|]; [now rewrite E|]. destruct (lookup k (y_store y)) as [[[] ?]|]; reflexivity.
      * rewrite is_active_in. unfold act_in. now rewrite E.
    + now rewrite keys_set.
    + intros k Hk. rewrite keys_set in Hk. auto.
    + intros k s d' Hk. unfold set_state in Hk. apply in_map_iff in Hk as ([k0 [s0 d0]] & E1 & Hk). cbn in E1.
      destruct (N.eqb k0 i); injection E1 as <- <- <-; eauto.
    + intros c k s Hcc Hi. unfold broadcast in Hcc; apply in_map_iff in Hcc as (c0 & <- & Hc0). cbn in Hi. apply in_app_or in Hi as [Hi|[E1|[]]]; [eauto|].
      injection E1 as <- <-. apply HF. apply lookup_In in E. change i with (fst (i, (SActive, d))). now apply in_map.
  - (* resume *)
    unfold api_resume, api_toggle. destruct (lookup i (y_store y)) as [[s d]|] eqn:E; [|constructor; auto].
    destruct s; cbn; [constructor; auto|]. constructor; cbn; auto.
    + unfold broadcast. rewrite Forall_map. eapply Forall_impl; [|exact HG]. intros c G. destruct G; constructor; auto.
    + unfold broadcast. rewrite Forall_map. eapply Forall_impl; [|exact HT]. intros c T. eapply tracks_broadcast; [exact T| |].
      * intros k. rewrite !is_active_in. unfold act_in. cbn. rewrite lookup_set. rewrite (N.eqb_sym i k).
        destruct (N.eqb_spec k i) as [->|]; [now rewrite E|]. destruct (lookup k (y_store y)) as [[[] ?]|]; reflexivity.
      * rewrite is_active_in. unfold act_in. now rewrite E.
    + now rewrite keys_set.
    + intros k Hk. rewrite keys_set in Hk. auto.
    + intros k s d' Hk. unfold set_state in Hk. apply in_map_iff in Hk as ([k0 [s0 d0]] & E1 & Hk). cbn in E1.
      destruct (N.eqb k0 i); injection E1 as <- <- <-; eauto.
    + intros c k s Hcc Hi. unfold broadcast in Hcc; apply in_map_iff in Hcc as (c0 & <- & Hc0). cbn in Hi. apply in_app_or in Hi as [Hi|[E1|[]]]; [eauto|].
      injection E1 as <- <-. apply HF. apply lookup_In in E. change i with (fst (i, (SPaused, d))). now apply in_map.
  - (* delete *)
    unfold api_delete. destruct (lookup i (y_store y)) as [[s d]|] eqn:E; [|constructor; auto]. cbn.
    assert (HKr : NoDup (map fst (remove i (y_store y)))) by now apply NoDup_filter_map.
    assert (HFr : forall k, In k (map fst (remove i (y_store y))) -> (k < y_fresh y)%N).
    { intros k Hk. apply in_map_iff in Hk as (z & <- & Hz). apply In_remove in Hz as [Hz _]. apply HF. now apply in_map. }
    assert (HCr : forall k s d', In (k, (s, d')) (remove i (y_store y)) -> sd_cron d' = crons k).
    { intros k s' d' Hk. apply In_remove in Hk as [Hk _]. eauto. }
    destruct s; constructor; cbn; auto.
    + unfold broadcast. rewrite Forall_map. eapply Forall_impl; [|exact HG]. intros c G. destruct G; constructor; auto.
    + unfold broadcast. rewrite Forall_map. eapply Forall_impl; [|exact HT]. intros c T. eapply tracks_broadcast; [exact T| |].
      * intros k. rewrite !is_active_in. unfold act_in. cbn. rewrite lookup_remove. rewrite (N.eqb_sym i k). now destruct (N.eqb k i).
      * rewrite is_active_in. unfold act_in. now rewrite E.
    + intros c k s Hcc Hi. unfold broadcast in Hcc; apply in_map_iff in Hcc as (c0 & <- & Hc0). cbn in Hi. apply in_app_or in Hi as [Hi|[E1|[]]]; [eauto|].
      injection E1 as <- <-. apply HF. apply lookup_In in E. change i with (fst (i, (SActive, d))). now apply in_map.
    + eapply Forall_impl; [|exact HT]. intros c T. eapply tracks_same; [exact T|].
      intros k. rewrite !is_active_in. unfold act_in. cbn. rewrite lookup_remove. destruct (N.eqb_spec k i) as [->|]; [now rewrite E|reflexivity].
  - (* take *)
    assert (HB : forall c, In c (upd k (take crons) (y_coords y)) -> good c /\ tracks y c /\ exists z, In z (y_coords y) /\ forall e, In e (c_pending c) -> In e (c_pending z)).
    { rewrite Forall_forall in HG, HT. intros c Hin. apply in_upd in Hin as [Hin|(z & Hz & ->)]; [split; [auto|split; [auto|exists c; auto]]|].
      destruct (take_inv y z (HG z Hz) (HT z Hz)) as (A & B & C). split; [exact A|]. split; [exact B|]. exists z. auto. }
    constructor; cbn; auto.
    + rewrite Forall_forall. intros c Hin. now apply HB.
    + rewrite Forall_forall. intros c Hin. apply HB in Hin as (_ & T & _). exact T.
    + intros c i s Hin Hi. apply HB in Hin as (_ & _ & z & Hz & Hsub). eapply HP; [exact Hz|apply Hsub, Hi].
  - (* tick *)
    rewrite tick_eq. destruct (existsb _ _); [|constructor; auto]. unfold fired. destruct (lookup i (y_store y)) as [[s d]|]; [|constructor; auto].
    constructor; cbn; auto. + intros k Hk. apply HF in Hk. lia. + intros c k s' H1 H2. specialize (HP _ _ _ H1 H2). lia.
  - (* start *)
    destruct (activate_all_good _ _ _ good_empty HK (fun _ _ => eq_refl) HC H) as (G & P & A & C).
    constructor; cbn; auto.
    + apply Forall_app. auto.
    + apply Forall_app. split; [exact HT|]. constructor; [|constructor]. intros i. exists (act_in (y_store y) i). rewrite P. cbn. rewrite A. cbn.
      split; [|split; [exact I|now rewrite is_active_in]]. destruct (act_in (y_store y) i) eqn:Ea; cbn; [symmetry; now apply C|reflexivity].
    + intros c0 i s Hin Hi. apply in_app_or in Hin as [Hin|[<-|[]]]; [eauto|]. rewrite P in Hi. destruct Hi.
  - (* crash *)
    assert (HB : forall c, In c (firstn k (y_coords y) ++ skipn (S k) (y_coords y)) -> In c (y_coords y)).
    { intros c Hin. apply in_app_or in Hin as [Hin|Hin]; [rewrite <- (firstn_skipn k)|rewrite <- (firstn_skipn (S k))]; apply in_or_app; auto. }
    rewrite Forall_forall in HG, HT. constructor; cbn -[skipn]; auto.
    + rewrite Forall_forall. auto. + rewrite Forall_forall. intros c Hin. apply HT. auto. + intros c i s Hin. apply HP. auto.
  - constructor; cbn; auto.
Qed.

Lemma sreach_inv y : sreach y -> sinv y.
Proof.
  intros (tr & HX & HC). remember sinit as y0 eqn:E0. induction HX as [y|y tr y1 l y2 HX IH Hs].
  - subst. constructor; cbn; try constructor; tauto.
  - apply Forall_app in HC as [HC1 HC2]. inversion HC2; subst. eapply sinv_step; eauto.
Qed.

(** ** C51 *)
(** There is never more than one cron entry for a scheduled job on a coordinator; once the coordinator has heard of all
    changes there is one exactly when the job is active (and its expression can be parsed). *)
Theorem C51_one_entry_iff_active : forall y c i, sreach y -> In c (y_coords y) ->
  (length (entries_for c i) <= 1)%nat /\
  (settled c i -> (entries_for c i <> [] <-> state_of y i = Some SActive /\ cron_parses (crons i) = true)).
Proof.
  intros y c i HR Hin. apply sreach_inv in HR. destruct HR as [HG HT _ _ _ _]. rewrite Forall_forall in HG, HT.
  specialize (HG c Hin). specialize (HT c Hin). split.
  - unfold entries_for. pose proof (g_ids _ HG) as HN. clear - HN. induction (c_entries c) as [|[h k] l IH]; cbn; [lia|]. cbn in HN. inversion HN; subst.
    destruct (N.eqb_spec k i) as [->|]; [|auto]. cbn. assert (filter (fun e : N * id => (snd e =? i)%N) l = []) as ->; [|cbn; lia].
    clear - H1. induction l as [|[h k] l IH]; cbn in *; [reflexivity|]. destruct (N.eqb_spec k i); [intuition|]. apply IH. tauto.
  - intros Hs. destruct (HT i) as (v & V1 & _ & V3). destruct (catch_up_none i v (c_pending c) Hs) as [_ E]. rewrite E in V3.
    transitivity (has c i = true).
    + rewrite (good_has _ _ HG). unfold entries_for. split.
      * intros H. destruct (filter (fun e : N * id => N.eqb (snd e) i) (c_entries c)) as [|[h k] l] eqn:EF; [congruence|].
        assert (In (h, k) (filter (fun e : N * id => N.eqb (snd e) i) (c_entries c))) as HI by (rewrite EF; cbn; auto).
        apply filter_In in HI as [HI Hk]. apply N.eqb_eq in Hk. cbn in Hk. subst. eauto.
      * intros (h & H) E0. assert (In (h, i) (filter (fun e : N * id => N.eqb (snd e) i) (c_entries c))) as HI by (apply filter_In; split; [auto|apply N.eqb_refl]).
        rewrite E0 in HI. destruct HI.
    + rewrite V1, V3, andb_true_iff. unfold is_active. destruct (state_of y i) as [[]|]; intuition discriminate.
Qed.

(** A tick of an active scheduled job makes exactly one job, carrying its definition, however many coordinators are running;
    a tick of a paused or deleted one makes none. *)
Theorem C51_one_job_per_tick : forall y i, sreach y -> y_coords y <> [] -> (forall c, In c (y_coords y) -> settled c i) ->
  cron_parses (crons i) = true ->
  y_store (tick i y) = y_store y /\
  match lookup i (y_store y) with
  | Some (SActive, d) => exists j, y_jobs (tick i y) = y_jobs y ++ [j] /\
      j_id j = y_fresh y /\ j_state j = JPending /\ j_created j = y_clock y /\
      j_name j = sd_name d /\ j_description j = sd_description d /\ j_tags j = sd_tags d /\ j_tasks j = sd_tasks d /\
      j_taskcount j = Z.of_nat (length (sd_tasks d)) /\ j_position j = 0 /\ j_inputs j = sd_inputs d /\ j_secrets j = sd_secrets d /\
      c_inputs (j_context j) = sd_inputs d /\ c_secrets (j_context j) = sd_secrets d /\ j_output j = sd_output d /\
      j_webhooks j = sd_webhooks d /\ j_permissions j = sd_permissions d /\ j_autodelete j = sd_autodelete d /\
      j_createdby j = sd_createdby d /\ j_schedule j = Some (mkSchedule i (sd_cron d))
  | Some (SPaused, _) | None => y_jobs (tick i y) = y_jobs y
  end.
Proof.
  intros y i HR HN HS HP. rewrite tick_eq.
  assert (HE : existsb (fun e : N * id => N.eqb (snd e) i) (all_entries y) = true <-> state_of y i = Some SActive).
  { unfold all_entries. rewrite existsb_exists. split.
    - intros (e & He & Hi). apply in_flat_map in He as (c & Hc & He). destruct (C51_one_entry_iff_active y c i HR Hc) as [_ H].
      apply H; [auto|]. unfold entries_for. intros E0. assert (In e (filter (fun e : N * id => N.eqb (snd e) i) (c_entries c))) as HI by (apply filter_In; auto). now rewrite E0 in HI.
    - intros Hs. destruct (y_coords y) as [|c cs] eqn:EC; [congruence|]. assert (Hc : In c (y_coords y)) by (rewrite EC; cbn; auto).
      destruct (C51_one_entry_iff_active y c i HR Hc) as [_ H]. specialize (HS c (or_introl eq_refl)). apply H in HS. destruct HS as [_ HS]. specialize (HS (conj Hs HP)).
      unfold entries_for in HS. destruct (filter _ (c_entries c)) as [|e l] eqn:EF; [congruence|].
      assert (In e (filter (fun e : N * id => N.eqb (snd e) i) (c_entries c))) as HI by (rewrite EF; cbn; auto). apply filter_In in HI as [HI Hk].
      exists e. split; [|exact Hk]. apply in_flat_map. exists c. rewrite <- EC. auto. }
  unfold state_of in HE. destruct (lookup i (y_store y)) as [[[] d]|] eqn:E.
  - rewrite (proj2 HE eq_refl). unfold fired. rewrite E. cbn. split; [reflexivity|]. eexists. split; [reflexivity|]. cbn. repeat split.
  - destruct (existsb _ _); [specialize (proj1 HE eq_refl); discriminate|]. auto.
  - destruct (existsb _ _); [specialize (proj1 HE eq_refl); discriminate|]. auto.
Qed.

(** In general a tick makes at most one job, and handling an event about one scheduled job touches the entries of no other. *)
Theorem C51_at_most_one : forall y i, exists l, y_jobs (tick i y) = y_jobs y ++ l /\ (length l <= 1)%nat.
Proof.
  intros y i. rewrite tick_eq. destruct (existsb _ _); [|exists []; rewrite app_nil_r; cbn; auto].
  unfold fired. destruct (lookup i (y_store y)) as [[s d]|]; [|exists []; rewrite app_nil_r; cbn; auto]. eexists. split; [reflexivity|]. cbn. auto.
Qed.
Theorem C51_others_untouched : forall y c i s r k, sreach y -> In c (y_coords y) -> c_pending c = (i, s) :: r -> k <> i ->
  entries_for (take crons c) k = entries_for c k.
Proof.
  intros y c i s r k HR Hin HP Hk. apply sreach_inv in HR. destruct HR as [HG _ _ _ _ _]. rewrite Forall_forall in HG. specialize (HG c Hin).
  unfold take. rewrite HP. destruct s; cbn [handle].
  - unfold handle_active. destruct (cron_parses (crons i)); [|reflexivity]. unfold entries_for. cbn [c_entries]. rewrite filter_app. cbn.
    destruct (N.eqb_spec i k); [congruence|]. apply app_nil_r.
  - unfold handle_paused. cbn [c_map c_entries]. destruct (lookup i (c_map c)) as [h|] eqn:E; [|reflexivity]. unfold entries_for. cbn [c_entries].
    apply (g_map _ HG) in E. pose proof (g_handles _ HG) as HN. clear - E HN Hk.
    induction (c_entries c) as [|[h' k'] l IH]; [reflexivity|]. cbn in HN. inversion HN; subst.
    change (remove h ((h', k') :: l)) with (if negb (N.eqb h' h) then (h', k') :: remove h l else remove h l). cbn [filter snd].
    destruct (N.eqb_spec h' h) as [->|Hn]; cbn [negb filter snd].
    + destruct E as [E|E]; [|exfalso; apply H1; change h with (fst (h, i)); now apply in_map]. injection E as ->. destruct (N.eqb_spec i k); [congruence|].
      f_equal. clear - H1. induction l as [|[a b] l IH]; [reflexivity|]. cbn in H1.
      change (remove h ((a, b) :: l)) with (if negb (N.eqb a h) then (a, b) :: remove h l else remove h l).
      destruct (N.eqb_spec a h); [intuition|]. cbn [negb]. rewrite IH by tauto. reflexivity.
    + destruct E as [E|E]; [congruence|]. rewrite IH; auto.
Qed.

(** ** C56 for schedules: pause iff ACTIVE, resume iff PAUSED; a refused call changes nothing; an accepted one changes that row only *)
Theorem C56_pause : forall y i y' ok, api_pause i y = (y', ok) ->
  (ok = true <-> state_of y i = Some SActive) /\ (ok = false -> y' = y) /\
  (ok = true -> state_of y' i = Some SPaused /\ y_jobs y' = y_jobs y /\ (forall k, k <> i -> lookup k (y_store y') = lookup k (y_store y)) /\
                forall c', In c' (y_coords y') -> exists c, In c (y_coords y) /\ c_entries c' = c_entries c /\ c_pending c' = c_pending c ++ [(i, SPaused)]).
Proof.
  intros y i y' ok H. unfold api_pause, api_toggle in H. unfold state_of. destruct (lookup i (y_store y)) as [[[] d]|] eqn:E; cbn in H; injection H as <- <-.
  - split; [tauto|]. split; [discriminate|]. intros _. cbn. rewrite lookup_set, E, N.eqb_refl. repeat split.
    + intros k Hk. rewrite lookup_set. destruct (N.eqb_spec k i); [congruence|]. now destruct (lookup k (y_store y)) as [[? ?]|].
    + intros c' Hc. unfold broadcast in Hc; apply in_map_iff in Hc as (c & <- & Hc). exists c. auto.
  - split; [intuition discriminate|]. split; [auto|discriminate].
  - split; [intuition discriminate|]. split; [auto|discriminate].
Qed.
Theorem C56_resume : forall y i y' ok, api_resume i y = (y', ok) ->
  (ok = true <-> state_of y i = Some SPaused) /\ (ok = false -> y' = y) /\
  (ok = true -> state_of y' i = Some SActive /\ y_jobs y' = y_jobs y /\ (forall k, k <> i -> lookup k (y_store y') = lookup k (y_store y)) /\
                forall c', In c' (y_coords y') -> exists c, In c (y_coords y) /\ c_entries c' = c_entries c /\ c_pending c' = c_pending c ++ [(i, SActive)]).
Proof.
  intros y i y' ok H. unfold api_resume, api_toggle in H. unfold state_of. destruct (lookup i (y_store y)) as [[[] d]|] eqn:E; cbn in H; injection H as <- <-.
  - split; [intuition discriminate|]. split; [auto|discriminate].
  - split; [tauto|]. split; [discriminate|]. intros _. cbn. rewrite lookup_set, E, N.eqb_refl. repeat split.
    + intros k Hk. rewrite lookup_set. destruct (N.eqb_spec k i); [congruence|]. now destruct (lookup k (y_store y)) as [[? ?]|].
    + intros c' Hc. unfold broadcast in Hc; apply in_map_iff in Hc as (c & <- & Hc). exists c. auto.
  - split; [intuition discriminate|]. split; [auto|discriminate].
Qed.
End Scheduled.
Print Assumptions C51_one_entry_iff_active.
Print Assumptions C51_one_job_per_tick.
Print Assumptions C51_at_most_one.
Print Assumptions C51_others_untouched.
Print Assumptions C56_pause.
Print Assumptions C56_resume.

(** ** Witnesses *)
(** running a list of labels (every created schedule is [d]) *)
Section Do.
Variable cron_parses : string -> bool.
Variable d : sdef.
Definition cr (_ : id) : string := sd_cron d.
Definition sdo (y : sys) (l : slabel) : option sys :=
  match l with
  | LCreate => Some (fst (api_create d y))
  | LPause i => Some (fst (api_pause i y))
  | LResume i => Some (fst (api_resume i y))
  | LDelete i => Some (fst (api_delete i y))
  | LTake k => Some (mkSys (y_store y) (upd k (take cron_parses cr) (y_coords y)) (y_fresh y) (y_clock y) (y_jobs y))
  | LTick i => Some (tick i y)
  | LStart => match start cron_parses (y_store y) with Some c => Some (mkSys (y_store y) (y_coords y ++ [c]) (y_fresh y) (y_clock y) (y_jobs y)) | None => None end
  | LCrash k => Some (mkSys (y_store y) (firstn k (y_coords y) ++ skipn (S k) (y_coords y)) (y_fresh y) (y_clock y) (y_jobs y))
  | LTime t => if 0 <=? t then Some (mkSys (y_store y) (y_coords y) (y_fresh y) (y_clock y + t) (y_jobs y)) else None
  | LDuplicate k => match nth_error (y_coords y) k with
                    | Some c => match c_pending c with
                                | e :: r => Some (mkSys (y_store y) (upd k (fun c => mkCoord (c_entries c) (c_map c) (c_next c) (e :: c_pending c)) (y_coords y)) (y_fresh y) (y_clock y) (y_jobs y))
                                | [] => None end
                    | None => None end
  | LUnsaid i => match lookup i (y_store y) with
                 | Some (SActive, _) => Some (mkSys (set_state i SPaused (y_store y)) (y_coords y) (y_fresh y) (y_clock y) (y_jobs y))
                 | _ => None end
  end.
Lemma sdo_step y l y' : sdo y l = Some y' -> sstep cron_parses cr y l y'.
Proof.
  destruct l; cbn [sdo]; intros H.
  - injection H as <-. now apply s_create. - injection H as <-. constructor. - injection H as <-. constructor. - injection H as <-. constructor.
  - injection H as <-. constructor. - injection H as <-. constructor.
  - destruct (start _ _) eqn:E; [|discriminate]. injection H as <-. now constructor.
  - injection H as <-. constructor.
  - destruct (nth_error _ _) eqn:E; [|discriminate]. destruct (c_pending c) eqn:E2; [discriminate|]. injection H as <-. econstructor; eauto.
  - destruct (lookup _ _) as [[[] ?]|] eqn:E; try discriminate. injection H as <-. econstructor; eauto.
  - destruct (0 <=? d0) eqn:E; [|discriminate]. injection H as <-. constructor. now apply Z.leb_le.
Qed.
Fixpoint sdos (y : sys) (tr : list slabel) : option sys :=
  match tr with [] => Some y | l :: tr => match sdo y l with Some y => sdos y tr | None => None end end.
Lemma sdos_exec tr : forall tr0 y y', sexec cron_parses cr sinit tr0 y -> sdos y tr = Some y' -> sexec cron_parses cr sinit (tr0 ++ tr) y'.
Proof.
  induction tr as [|l tr IH]; cbn; intros tr0 y y' HX H; [injection H as <-; now rewrite app_nil_r|].
  destruct (sdo y l) as [y1|] eqn:E; [|discriminate]. replace (tr0 ++ l :: tr) with ((tr0 ++ [l]) ++ tr) by now rewrite <- app_assoc.
  eapply IH; [|exact H]. econstructor; [exact HX|now apply sdo_step].
Qed.
Lemma sdos_init tr y : sdos sinit tr = Some y -> sexec cron_parses cr sinit tr y.
Proof. intros H. apply (sdos_exec tr [] sinit y); [constructor|exact H]. Qed.
Lemma sdos_reach tr y : sdos sinit tr = Some y -> Forall clean tr -> sreach cron_parses cr y.
Proof. intros H HC. exists tr. split; [now apply sdos_init|exact HC]. Qed.
End Do.
Definition d0 : sdef := mkSDef "n" "" "* * * * *" [] [] None (Some (mkDefaults None None "5s" "gpu" 3)) None [] [] [] [] "".
Definition yes (_ : string) : bool := true.
(** two coordinators, one schedule created, paused, resumed; ticks *)
Definition run1 : list slabel := [LStart; LStart; LCreate; LTake 0; LTake 1; LPause 1%N; LTake 0; LTake 1].
Definition run2 : list slabel := run1 ++ [LResume 1%N; LTake 0; LTake 1].
Example C51_nonvacuous : exists y1 y2,
  sreach yes (cr d0) y1 /\ state_of y1 1%N = Some SPaused /\ length (y_coords y1) = 2%nat /\ y_jobs (tick 1%N y1) = [] /\
  sreach yes (cr d0) y2 /\ state_of y2 1%N = Some SActive /\ length (y_coords y2) = 2%nat /\ (forall c, In c (y_coords y2) -> settled c 1%N) /\ length (y_jobs (tick 1%N y2)) = 1%nat.
Proof.
  eexists. eexists. split; [apply sdos_reach with (tr := run1); [vm_compute; reflexivity|repeat constructor]|].
  split; [vm_compute; reflexivity|]. split; [reflexivity|]. split; [vm_compute; reflexivity|].
  split; [apply sdos_reach with (tr := run2); [vm_compute; reflexivity|repeat constructor]|].
  split; [vm_compute; reflexivity|]. split; [reflexivity|]. split; [|vm_compute; reflexivity].
  intros c [<-|[<-|[]]] s; vm_compute; tauto.
Qed.

(** An activation delivered twice leaves an entry that pausing does not remove: a paused job keeps producing jobs. *)
Theorem C51_duplicate_activation_refuted : exists y, (exists tr, sexec yes (cr d0) sinit tr y) /\
  state_of y 1%N = Some SPaused /\ (forall c, In c (y_coords y) -> c_pending c = []) /\ length (y_jobs (tick 1%N y)) = 1%nat.
Proof.
  eexists. split.
  - exists [LStart; LCreate; LDuplicate 0; LTake 0; LTake 0; LPause 1%N; LTake 0]. apply sdos_init. vm_compute. reflexivity.
  - split; [vm_compute; reflexivity|]. split; [|vm_compute; reflexivity]. intros c [<-|[]]. vm_compute. reflexivity.
Qed.
Print Assumptions C51_duplicate_activation_refuted.

(** A pause whose event was not published: the row says PAUSED, the jobs keep coming (the state is not checked at the tick). *)
Theorem C51_unsaid_pause_refuted : exists y, (exists tr, sexec yes (cr d0) sinit tr y) /\
  state_of y 1%N = Some SPaused /\ (forall c, In c (y_coords y) -> c_pending c = []) /\ length (y_jobs (tick 1%N y)) = 1%nat.
Proof.
  eexists. split.
  - exists [LStart; LCreate; LTake 0; LUnsaid 1%N]. apply sdos_init. vm_compute. reflexivity.
  - split; [vm_compute; reflexivity|]. split; [|vm_compute; reflexivity]. intros c [<-|[]]. vm_compute. reflexivity.
Qed.
Print Assumptions C51_unsaid_pause_refuted.

(** The defaults of a scheduled job are lost. *)
Theorem C51_defaults_refuted : exists y i d, sreach yes (cr d0) y /\ lookup i (y_store y) = Some (SActive, d) /\ sd_defaults d <> None /\
  exists j, In j (y_jobs (tick i y)) /\ j_defaults j = None.
Proof.
  eexists. exists 1%N, d0. split; [apply sdos_reach with (tr := [LStart; LCreate; LTake 0]); [vm_compute; reflexivity|repeat constructor]|].
  split; [reflexivity|]. split; [discriminate|]. eexists. split; [vm_compute; left; reflexivity|reflexivity].
Qed.
Print Assumptions C51_defaults_refuted.

(** One active scheduled job whose expression the scheduler cannot parse keeps every coordinator from starting
    (validation checks the expression against the validator library's unanchored pattern, input/job.go:54-56, not with the parser). *)
Definition d_bad : sdef := mkSDef "n" "" "99 99 99 99 99" [] [] None None None [] [] [] [] "".
Definition parses (s : string) : bool := negb (String.eqb s "99 99 99 99 99").
Theorem C51_bad_expression_blocks_start_refuted : exists y, sreach parses (cr d_bad) y /\ start parses (y_store y) = None.
Proof.
  eexists. split; [apply sdos_reach with (tr := [LCreate]); [vm_compute; reflexivity|repeat constructor]|]. reflexivity.
Qed.
Print Assumptions C51_bad_expression_blocks_start_refuted.

(** Deleting a scheduled job deletes its instances whatever their state (postgres.go:1568-1576). *)
Theorem C51_delete_takes_instances_refuted : exists y j, sreach yes (cr d0) y /\ In j (y_jobs y) /\ j_state j = JPending /\
  y_jobs (fst (api_delete 1%N y)) = [].
Proof.
  eexists. eexists. split; [apply sdos_reach with (tr := [LStart; LCreate; LTake 0; LTick 1%N]); [vm_compute; reflexivity|repeat constructor]|].
  split; [left; reflexivity|]. split; reflexivity.
Qed.
Print Assumptions C51_delete_takes_instances_refuted.
