(** C37: shipping a task's log (broker/log.go LogShipper). *)
From Coq Require Import String List Ascii Arith Lia Bool.
Import ListNotations.
Open Scope list_scope.

(* ------------------------------------------------------------------ *)
(** * Specification: what is observed *)
Definition bytes := list ascii.
(** [SWrite p]: a Write call that returned; [SShip n c ok]: PublishTaskLogPart with part number [n]
    and contents [c] was called and succeeded ([ok]) or failed. *)
Inductive sevent := SWrite (p : bytes) | SShip (n : nat) (c : bytes) (ok : bool).
Definition written (tr : list sevent) : bytes := flat_map (fun e => match e with SWrite p => p | _ => [] end) tr.
Definition parts (tr : list sevent) : list (nat * bytes * bool) := flat_map (fun e => match e with SShip n c ok => [(n, c, ok)] | _ => [] end) tr.
Definition contents (l : list (nat * bytes * bool)) : bytes := flat_map (fun x => snd (fst x)) l.
Definition number (x : nat * bytes * bool) : nat := fst (fst x).

(* ------------------------------------------------------------------ *)
(** * Model *)
(** broker/log.go:11-16: the channel [q] (capacity 1000, log.go:22), the goroutine's [buffer]
    and the part counter.  Write copies its argument (log.go:29-30), so contents are values. *)
Record shipper := mkShip { sh_q : list bytes; sh_buf : bytes; sh_part : nat }.
Definition ship0 := mkShip [] [] 0.
Definition q_cap : nat := 1000.
Inductive sstep : shipper -> list sevent -> shipper -> Prop :=
| st_write : forall s p, length (sh_q s) < q_cap ->                      (* log.go:28-33; blocks when full *)
    sstep s [SWrite p] (mkShip (sh_q s ++ [p]) (sh_buf s) (sh_part s))
| st_take : forall s p q, sh_q s = p :: q ->                             (* log.go:40-41 *)
    sstep s [] (mkShip q (sh_buf s ++ p) (sh_part s))
| st_tick : forall s ok, 0 < length (sh_buf s) ->                        (* log.go:42-53 *)
    sstep s [SShip (sh_part s + 1) (sh_buf s) ok] (mkShip (sh_q s) [] (sh_part s + 1))
| st_idle : forall s, sh_buf s = [] -> sstep s [] s.                      (* log.go:43: nothing to ship *)
Inductive sruns : shipper -> list sevent -> shipper -> Prop :=
| sr_nil : forall s, sruns s [] s
| sr_step : forall s tr s1 es s2, sruns s tr s1 -> sstep s1 es s2 -> sruns s (tr ++ es) s2.

(* ------------------------------------------------------------------ *)
(** * Proofs *)
Lemma written_app a b : written (a ++ b) = written a ++ written b.
Proof. apply flat_map_app. Qed.
Lemma parts_app a b : parts (a ++ b) = parts a ++ parts b.
Proof. apply flat_map_app. Qed.
Lemma contents_app a b : contents (a ++ b) = contents a ++ contents b.
Proof. apply flat_map_app. Qed.

Lemma ship_inv tr s : sruns ship0 tr s ->
  written tr = contents (parts tr) ++ sh_buf s ++ concat (sh_q s) /\
  map number (parts tr) = seq 1 (sh_part s) /\
  Forall (fun x => snd (fst x) <> []) (parts tr) /\ length (sh_q s) <= q_cap.
Proof.
  remember ship0 as s0 eqn:E0. induction 1 as [|s tr s1 es s2 Hr IH Hs]; subst.
  - cbn. split; [reflexivity|]. split; [reflexivity|]. split; [constructor|unfold q_cap; lia].
  - destruct (IH eq_refl) as (I1 & I2 & I3 & I4). clear IH. rewrite written_app, parts_app. destruct Hs as [s1 p Hq|s1 p q Hq|s1 ok Hb|s1 Hb]; cbn [sh_q sh_buf sh_part] in *.
    + change (written [SWrite p]) with (p ++ []). change (parts [SWrite p]) with (@nil (nat * bytes * bool)). rewrite !app_nil_r.
      split; [rewrite I1, concat_app, <- !app_assoc; cbn; now rewrite app_nil_r|]. repeat split; auto. rewrite app_length. cbn. lia.
    + change (written []) with (@nil ascii). change (parts []) with (@nil (nat * bytes * bool)). rewrite !app_nil_r. rewrite Hq in *.
      split; [rewrite I1, <- !app_assoc; reflexivity|]. repeat split; auto. cbn in I4. lia.
    + change (written [SShip (sh_part s1 + 1) (sh_buf s1) ok]) with (@nil ascii). rewrite app_nil_r.
      change (parts [SShip (sh_part s1 + 1) (sh_buf s1) ok]) with [(sh_part s1 + 1, sh_buf s1, ok)].
      split; [rewrite contents_app, I1; cbn; now rewrite app_nil_r, <- app_assoc|].
      split; [rewrite map_app, I2, seq_app; cbn; f_equal; f_equal; unfold number; cbn; lia|].
      split; [apply Forall_app; split; [exact I3|]; constructor; [|constructor]; cbn; intros E; rewrite E in Hb; cbn in Hb; lia|exact I4].
    + change (written []) with (@nil ascii). change (parts []) with (@nil (nat * bytes * bool)). rewrite !app_nil_r. auto.
Qed.

(** The parts, in the order of their numbers 1, 2, 3, ..., contain exactly a prefix of the bytes
    written; no part is empty; what is missing is still inside the shipper. *)
Theorem C37_parts_are_the_log : forall tr s, sruns ship0 tr s ->
  (exists rest, written tr = contents (parts tr) ++ rest /\ (sh_q s = [] -> sh_buf s = [] -> rest = [])) /\
  map number (parts tr) = seq 1 (length (parts tr)) /\
  (forall n c ok, In (n, c, ok) (parts tr) -> c <> []).
Proof.
  intros tr s Hr. destruct (ship_inv tr s Hr) as (I1 & I2 & I3 & _). split; [|split].
  - exists (sh_buf s ++ concat (sh_q s)). split; [exact I1|]. intros -> ->. reflexivity.
  - rewrite I2. f_equal. rewrite <- (map_length number (parts tr)), I2. symmetry. apply seq_length.
  - rewrite Forall_forall in I3. intros n c ok Hin. exact (I3 _ Hin).
Qed.
Print Assumptions C37_parts_are_the_log.

(** Nothing is kept back for ever: once the queue has been consumed, the next tick ships
    everything written so far; and the queue can always be consumed. *)
Theorem C37_a_tick_ships_everything : forall tr s ok n c s',
  sruns ship0 tr s -> sh_q s = [] -> sstep s [SShip n c ok] s' ->
  written tr = contents (parts (tr ++ [SShip n c ok])).
Proof.
  intros tr s ok n c s' Hr Hq Hs. destruct (ship_inv tr s Hr) as (I1 & _). inversion Hs; subst. rewrite parts_app, contents_app, I1, Hq. cbn.
  now rewrite !app_nil_r.
Qed.
Print Assumptions C37_a_tick_ships_everything.
Theorem C37_can_always_drain : forall tr s, sruns ship0 tr s ->
  exists tr' s', sruns ship0 (tr ++ tr') s' /\ written (tr ++ tr') = written tr /\ written tr = contents (parts (tr ++ tr')).
Proof.
  intros tr s Hr.
  assert (D : forall q s, sh_q s = q -> sruns ship0 tr s -> exists s', sruns ship0 tr s' /\ sh_q s' = []).
  { induction q as [|p q IH]; intros s1 Hq H1; [eauto|]. apply (IH (mkShip q (sh_buf s1 ++ p) (sh_part s1)) eq_refl).
    rewrite <- (app_nil_r tr). eapply sr_step; [exact H1|]. now constructor. }
  destruct (D _ s eq_refl Hr) as (s1 & H1 & Hq). destruct (sh_buf s1) as [|b buf] eqn:Hb.
  - exists [], s1. rewrite app_nil_r. split; [exact H1|]. split; [reflexivity|]. destruct (ship_inv tr s1 H1) as (I1 & _). rewrite I1, Hq, Hb. cbn. now rewrite app_nil_r.
  - eexists [SShip _ _ true], _. split; [eapply sr_step; [exact H1|apply st_tick; rewrite Hb; cbn; lia]|].
    split; [rewrite written_app; cbn; apply app_nil_r|]. eapply C37_a_tick_ships_everything; [exact H1|exact Hq|apply st_tick; rewrite Hb; cbn; lia].
Qed.
Print Assumptions C37_can_always_drain.

(** What the readers get: the successfully published parts, sorted by number, are the log iff no publication failed ... *)
Definition delivered (tr : list sevent) : list (nat * bytes * bool) := filter (fun x => snd x) (parts tr).
Theorem C37_delivered_without_faults : forall tr s, sruns ship0 tr s -> (forall n c ok, In (n, c, ok) (parts tr) -> ok = true) ->
  delivered tr = parts tr.
Proof.
  intros tr s _ H. unfold delivered. set (l := parts tr) in *. clearbody l. induction l as [|[[n c] ok] l IH]; cbn; [reflexivity|].
  rewrite (H n c ok (or_introl eq_refl)). f_equal. apply IH. intros. eapply H. right; eauto.
Qed.
Print Assumptions C37_delivered_without_faults.
(** ... because a failed publication is logged and dropped: its bytes are lost and its number is skipped. *)
Theorem C37_failed_part_is_lost_refuted : exists tr s, sruns ship0 tr s /\ sh_q s = [] /\ sh_buf s = [] /\
  contents (delivered tr) <> written tr /\ map number (delivered tr) = [2].
Proof.
  exists ((((([] ++ [SWrite ["a"%char]]) ++ []) ++ [SShip 1 ["a"%char] false]) ++ [SWrite ["b"%char]]) ++ [] ++ [SShip 2 ["b"%char] true]), (mkShip [] [] 2).
  split; [|split; [reflexivity|split; [reflexivity|split; [cbn; discriminate|reflexivity]]]].
  rewrite app_assoc. eapply sr_step; [eapply sr_step; [eapply sr_step; [eapply sr_step; [eapply sr_step; [eapply sr_step; [apply sr_nil|]|]|]|]|]|].
  - apply st_write. cbn. unfold q_cap. lia.
  - now eapply st_take.
  - apply (st_tick (mkShip [] ["a"%char] 0)). cbn. lia.
  - apply st_write. cbn. unfold q_cap. lia.
  - now eapply st_take.
  - apply (st_tick (mkShip [] ["b"%char] 1)). cbn. lia.
Qed.
Print Assumptions C37_failed_part_is_lost_refuted.
(** (This run also shows that the hypotheses of the theorems above are met by a non-empty log.) *)
