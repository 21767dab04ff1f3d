(** C80: what becomes of the numbers a task writes to its progress file.  runtime/docker/tcontainer.go:430-455 (reportProgress),
    487-517 (readProgress), runtime/shell/shell.go:209-236, 267-277, runtime/podman/podman.go:394-432,
    internal/coordinator/handlers/progress.go:28-40 (what is stored).
    The three loops are the same: read the file, publish the value if it differs from the last one, wait ten seconds or for the
    end of the task.  What the file holds at each reading and whether each publication succeeds is arbitrary; the task may end
    at any point, i.e. the list of readings may be cut anywhere.
    Simplifications: the values of float64 other than NaN are represented by integers (only comparisons matter here). *)
From Coq Require Import List ZArith Bool Lia.
Import ListNotations.
Open Scope list_scope.
Open Scope Z_scope.

(* ------------------------------------------------------------------ *)
(** * Model *)
(** a float64 *)
Inductive pval := PNum (v : Z) | PNaN.
(** Go's == on float64 *)
Definition same (a b : pval) : bool := match a, b with PNum x, PNum y => Z.eqb x y | _, _ => false end.
(** one reading: a number (an empty file is 0), a file that is gone (or the context cancelled), anything else *)
Inductive reading := RVal (v : pval) | RGone | RBad.
(** one publication: the value and whether the broker took it *)
Definition publication := (pval * bool)%type.
(** tcontainer.go:430-455 *)
Fixpoint report (cur : pval) (ticks : list (reading * bool)) : list publication :=
  match ticks with
  | [] => []
  | (RGone, _) :: _ => []
  | (RBad, _) :: r => report cur r
  | (RVal v, ok) :: r => if negb (same v cur) then (v, ok) :: report v r else report cur r
  end.
(** handlers/progress.go:30-34: NaN is neither below 0 nor above 100 *)
Definition clamp (v : pval) : pval :=
  match v with PNum x => if x <? 0 then PNum 0 else if 100 <? x then PNum 100 else PNum x | PNaN => PNaN end.
(** handlers/progress.go:35-40: the stored progress after the coordinator has handled the publications it got *)
Definition stored_progress (p0 : pval) (l : list publication) : pval :=
  fold_left (fun p e => if snd e : bool then clamp (fst e) else p) l p0.

(* ------------------------------------------------------------------ *)
(** * Specification *)
Inductive subsequence {A} : list A -> list A -> Prop :=
| sub_nil : subsequence [] []
| sub_skip x l m : subsequence l m -> subsequence l (x :: m)
| sub_take x l m : subsequence l m -> subsequence (x :: l) (x :: m).
(** the readings until the file was gone *)
Fixpoint until_gone (ticks : list (reading * bool)) : list (reading * bool) :=
  match ticks with [] => [] | (RGone, _) :: _ => [] | e :: r => e :: until_gone r end.
(** the last number read, the initial one if there was none *)
Definition last_read (p0 : pval) (ticks : list (reading * bool)) : pval :=
  fold_left (fun p e => match fst e with RVal v => v | _ => p end) (until_gone ticks) p0.
Definition no_nan (ticks : list (reading * bool)) : Prop := forall ok, ~ In (RVal PNaN, ok) ticks.
Definition in_range (v : pval) : Prop := match v with PNum x => 0 <= x <= 100 | PNaN => False end.
(** how often the number read changes *)
Fixpoint changes (cur : pval) (ticks : list (reading * bool)) : nat :=
  match ticks with
  | [] => O
  | (RVal v, _) :: r => if same v cur then changes cur r else S (changes v r)
  | (_, _) :: r => changes cur r
  end.

(* ------------------------------------------------------------------ *)
(** * Theorems *)
(** C80: every published number was read from the file, in the order of reading and at most once per reading. *)
Theorem C80_only_what_was_read : forall cur ticks,
  subsequence (map (fun p => (RVal (fst p), snd p)) (report cur ticks)) (until_gone ticks).
Proof.
  intros cur ticks. revert cur. induction ticks as [|[[v| |] ok] r IH]; intros cur; cbn.
  - constructor.
  - destruct (same v cur); cbn; [apply sub_skip|apply sub_take]; apply IH.
  - constructor.
  - apply sub_skip, IH.
Qed.
Print Assumptions C80_only_what_was_read.

Lemma same_eq a b : same a b = true -> a = b.
Proof. destruct a, b; cbn; intros H; try discriminate. apply Z.eqb_eq in H. congruence. Qed.
Lemma same_refl x : same (PNum x) (PNum x) = true.
Proof. apply Z.eqb_refl. Qed.

(** C80: a number is published only when it differs from the one published before it (the task's first number from 0):
    as many publications as changes. *)
Theorem C80_on_change : forall cur ticks, no_nan ticks ->
  (List.length (report cur ticks) <= changes cur ticks)%nat /\
  (forall v ok rest, report cur ticks = (v, ok) :: rest -> v <> cur) /\
  (forall before v ok w ok' rest, report cur ticks = before ++ (v, ok) :: (w, ok') :: rest -> v <> w).
Proof.
  intros cur ticks. revert cur. induction ticks as [|[[v| |] ok] r IH]; intros cur N.
  - cbn. split; [lia|]. split; [discriminate|]. intros [|? [|? ?]]; discriminate.
  - assert (N' : no_nan r) by (intros o Hin; apply (N o); right; exact Hin).
    destruct v as [x|]; [|exfalso; apply (N ok); left; reflexivity].
    cbn [report changes]. destruct (same (PNum x) cur) eqn:E; cbn [negb]; [exact (IH cur N')|].
    destruct (IH (PNum x) N') as (A & B & C). split; [cbn; lia|]. split.
    + intros w o rest H. injection H as <- <- <-. intros <-. rewrite same_refl in E. discriminate.
    + intros [|p before] w o w' o' rest H.
      * injection H as <- <- H. intros <-. exact (B _ _ _ H eq_refl).
      * injection H as <- H. exact (C _ _ _ _ _ _ H).
  - cbn. split; [lia|]. split; [discriminate|]. intros [|? [|? ?]]; discriminate.
  - assert (N' : no_nan r) by (intros o Hin; apply (N o); right; exact Hin). exact (IH cur N').
Qed.
Print Assumptions C80_on_change.

(** C80: after every reading, the number last published (or the initial one) is the number last read. *)
Theorem C80_up_to_date : forall cur ticks, last (map fst (report cur ticks)) cur = last_read cur ticks.
Proof.
  assert (L : forall (l : list pval) a b, l <> [] -> last l a = last l b).
  { induction l as [|x [|y l] IH]; intros a b H; [contradiction|reflexivity|]. exact (IH a b ltac:(discriminate)). }
  intros cur ticks. unfold last_read. revert cur. induction ticks as [|[[v| |] ok] r IH]; intros cur; try reflexivity.
  - cbn [report until_gone fold_left fst]. destruct (same v cur) eqn:E; cbn [negb].
    + apply same_eq in E. subst v. apply IH.
    + rewrite <- IH. cbn [map fst]. destruct (map fst (report v r)) as [|x l] eqn:El; [reflexivity|].
      change (last (v :: x :: l) cur) with (last (x :: l) cur). apply L. discriminate.
  - cbn [report until_gone fold_left fst]. apply IH.
Qed.
Print Assumptions C80_up_to_date.

(** C80: if the broker takes every publication and they arrive in order, the stored progress of a task that begins at 0 is
    always the number last read, brought into the range 0 to 100. *)
Theorem C80_stored : forall ticks, (forall v ok, In (RVal v, ok) ticks -> ok = true) -> no_nan ticks ->
  stored_progress (PNum 0) (report (PNum 0) ticks) = clamp (last_read (PNum 0) ticks) /\
  in_range (stored_progress (PNum 0) (report (PNum 0) ticks)).
Proof.
  intros ticks. assert (G : forall p cur, p = clamp cur -> (forall v ok, In (RVal v, ok) ticks -> ok = true) ->
    stored_progress p (report cur ticks) = clamp (last_read cur ticks)).
  { induction ticks as [|[[v| |] ok] r IH]; intros p cur -> H; try reflexivity.
    - unfold last_read. cbn [report until_gone fold_left fst]. assert (H' : forall v ok, In (RVal v, ok) r -> ok = true) by (intros; eapply H; right; eassumption).
      destruct (same v cur) eqn:E; cbn [negb].
      + apply same_eq in E. subst v. apply (IH _ _ eq_refl H').
      + rewrite (H v ok ltac:(left; reflexivity)). unfold stored_progress. cbn [fold_left snd fst]. apply (IH _ _ eq_refl H').
    - unfold last_read. cbn [report until_gone fold_left fst]. apply (IH _ _ eq_refl). intros; eapply H; right; eassumption. }
  intros H N. rewrite (G (PNum 0) (PNum 0) eq_refl H). split; [reflexivity|].
  assert (Nn : last_read (PNum 0) ticks <> PNaN).
  { unfold last_read. assert (K : forall p, p <> PNaN -> fold_left (fun p e => match fst e with RVal v => v | _ => p end) (until_gone ticks) p <> PNaN).
    { clear G H. induction ticks as [|[[v| |] ok] r IH]; intros p Hp; try exact Hp.
      - cbn. apply IH; [intros o Hin; apply (N o); right; exact Hin|]. intros ->. apply (N ok). left. reflexivity.
      - cbn. apply IH; [intros o Hin; apply (N o); right; exact Hin|exact Hp]. }
    apply K. discriminate. }
  destruct (last_read (PNum 0) ticks) as [x|]; [|contradiction]. cbn.
  destruct (Z.ltb_spec x 0); [cbn; lia|]. destruct (Z.ltb_spec 100 x); cbn; lia.
Qed.
Print Assumptions C80_stored.

(** C80: once the file is gone nothing more is published. *)
Theorem C80_gone : forall cur before ok after, report cur (before ++ (RGone, ok) :: after) = report cur before.
Proof.
  intros cur before ok after. revert cur. induction before as [|[[v| |] o] r IH]; intros cur; cbn; try reflexivity; try apply IH.
  destruct (negb (same v cur)); [rewrite IH; reflexivity|apply IH].
Qed.
Print Assumptions C80_gone.

(** A publication the broker refused is not repeated however long the number stands: the coordinator never learns it. *)
Theorem C80_refused_refuted : exists v, forall n, 
  let ticks := (RVal v, false) :: repeat (RVal v, true) n in
  last_read (PNum 0) ticks = v /\ report (PNum 0) ticks = [(v, false)] /\ stored_progress (PNum 0) (report (PNum 0) ticks) = PNum 0.
Proof.
  exists (PNum 50). intros n. cbv zeta.
  assert (R : forall n, report (PNum 50) (repeat (RVal (PNum 50), true) n) = []) by (induction n0; [reflexivity|exact IHn0]).
  assert (L : last_read (PNum 50) (repeat (RVal (PNum 50), true) n) = PNum 50).
  { unfold last_read. induction n; [reflexivity|exact IHn]. }
  split; [exact L|]. cbn [report same negb]. change (0 =? 50) with false. cbn. rewrite R. split; reflexivity.
Qed.
Print Assumptions C80_refused_refuted.
(** The text NaN in the file is a number: it is published at every reading, and stored, outside of the range. *)
Theorem C80_nan_refuted : forall n, let ticks := repeat (RVal PNaN, true) n in
  report (PNum 0) ticks = repeat (PNaN, true) n /\ (n <> O -> ~ in_range (stored_progress (PNum 0) (report (PNum 0) ticks))).
Proof.
  intros n. cbv zeta.
  assert (R : forall c n, report c (repeat (RVal PNaN, true) n) = repeat (PNaN, true) n) by (intros c m; revert c; induction m; intros c; [reflexivity|cbn; rewrite IHm; reflexivity]).
  split; [apply R|]. intros H. rewrite R. destruct n as [|n]; [contradiction|]. unfold stored_progress. cbn [repeat fold_left snd fst clamp].
  assert (S : fold_left (fun p e => if snd e : bool then clamp (fst e) else p) (repeat (PNaN, true) n) PNaN = PNaN) by (clear H; induction n; [reflexivity|exact IHn]).
  rewrite S. intros [].
Qed.
Print Assumptions C80_nan_refuted.

Example C80_example :
  let ticks := [(RVal (PNum 0), true); (RVal (PNum 10), true); (RBad, true); (RVal (PNum 10), true); (RVal (PNum 120), true); (RGone, true); (RVal (PNum 3), true)] in
  report (PNum 0) ticks = [(PNum 10, true); (PNum 120, true)] /\ stored_progress (PNum 0) (report (PNum 0) ticks) = PNum 100 /\ no_nan ticks.
Proof.
  cbv zeta. split; [reflexivity|]. split; [reflexivity|]. intros ok H. cbn in H. intuition discriminate.
Qed.
