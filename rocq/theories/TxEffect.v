(** What the completion transactions do to the tables, for every placement of faults. *)
From Verif Require Export Layer SpecEffect PropsComplete.
Open Scope string_scope.
Open Scope list_scope.
Open Scope Z_scope.

Definition notok {A} (r : outcome A) : Prop :=
  match r with Ok _ => False | Err _ (Some _) => False | _ => True end.
Definition noerr {X A} (f : X -> outcome (X * A)) : Prop :=
  forall u, match f u with Err _ (Some _) => False | _ => True end.

Lemma faulty_cases {A} (f : act A) w : exists fs,
  (faulty f w = (w <| w_faults := fs |>, Err "fault" None)) \/ faulty f w = f (w <| w_faults := fs |>).
Proof.
  unfold faulty. destruct (w_faults w) as [|[|] r] eqn:E.
  - exists []. right. replace (w <| w_faults := [] |>) with w; [reflexivity|]. destruct w; cbn in *; now subst.
  - exists r. now left.
  - exists r. now right.
Qed.

Lemma upd_task_cases {A} i (f : task -> outcome (task * A)) w w1 r : noerr f -> a_update_task i f w = (w1, r) ->
  w_jobs w1 = w_jobs w /\ w_hist w1 = w_hist w /\ w_auto w1 = w_auto w /\ w_fresh w1 = w_fresh w /\ 
  ((notok r /\ w_tasks w1 = w_tasks w) \/
   exists u u' a, r = Ok a /\ find_task i w = Some u /\ f u = Ok (u', a) /\ w_tasks w1 = put_task u' (w_tasks w)).
Proof.
  intros Hn. unfold a_update_task.
  match goal with |- faulty ?g w = _ -> _ => destruct (faulty_cases g w) as (fs & [E|E]); rewrite E; clear E end.
  { intros E. injection E as <- <-. ands; auto. left; split; [exact I|auto]. }
  change (find_task i (w <| w_faults := fs |>)) with (find_task i w).
  destruct (find_task i w) as [u|] eqn:Eu; [|intros E; injection E as <- <-; ands; auto; left; split; [exact I|auto]].
  specialize (Hn u). destruct (f u) as [[u' a]|e [m|]| |] eqn:Ef; try contradiction; intros E; injection E as <- <-; ands; auto;
    try (left; split; [exact I|auto]; fail).
  right. exists u, u', a. auto.
Qed.
Lemma upd_job_cases {A} i (f : job -> outcome (job * A)) w w1 r : noerr f -> a_update_job i f w = (w1, r) ->
  w_tasks w1 = w_tasks w /\ w_hist w1 = w_hist w /\ w_auto w1 = w_auto w /\ w_fresh w1 = w_fresh w /\
  ((notok r /\ w_jobs w1 = w_jobs w) \/
   exists u u' a, r = Ok a /\ find_job i w = Some u /\ f u = Ok (u', a) /\ w_jobs w1 = put_job u' (w_jobs w)).
Proof.
  intros Hn. unfold a_update_job.
  match goal with |- faulty ?g w = _ -> _ => destruct (faulty_cases g w) as (fs & [E|E]); rewrite E; clear E end.
  { intros E. injection E as <- <-. ands; auto. left; split; [exact I|auto]. }
  change (find_job i (w <| w_faults := fs |>)) with (find_job i w).
  destruct (find_job i w) as [u|] eqn:Eu; [|intros E; injection E as <- <-; ands; auto; left; split; [exact I|auto]].
  specialize (Hn u). destruct (f u) as [[u' a]|e [m|]| |] eqn:Ef; try contradiction; intros E; injection E as <- <-; ands; auto;
    try (left; split; [exact I|auto]; fail).
  right. exists u, u', a. auto.
Qed.

Lemma with_tx_cases {A} (body : act A) w w' r' : a_with_tx body w = (w', r') ->
  exists w1 r1, body (w <| w_auto := [] |>) = (w1, r1) /\ w_hist w' = w_hist w1 /\ w_fresh w' = w_fresh w1 /\
   ((exists a, r1 = Ok a /\ r' = Ok a /\ w_tasks w' = w_tasks w1 /\ w_jobs w' = w_jobs w1) \/
    (w_tasks w' = mark_pending (w_auto w1) (w_tasks w) /\ w_jobs w' = w_jobs w /\
     ((exists a, r1 = Ok a) \/ notok r1 -> notok r'))).
Proof.
  unfold a_with_tx. destruct (body (w <| w_auto := [] |>)) as [w1 r1] eqn:Eb. intros H. exists w1, r1. split; [reflexivity|].
  destruct r1 as [a|e m| |].
  - destruct (faulty_cases (aret tt) w1) as (fs & [E|E]); rewrite E in H; cbn in H; injection H as <- <-;
      (split; [reflexivity|]); (split; [reflexivity|]).
    + right. cbn. ands; auto.
    + left. exists a. auto.
  - injection H as <- <-. cbn. split; [reflexivity|]. split; [reflexivity|]. right. ands; auto.
    intros [[? X]|X]; [discriminate X|exact X].
  - injection H as <- <-. cbn. split; [reflexivity|]. split; [reflexivity|]. right. ands; auto.
  - injection H as <- <-. cbn. split; [reflexivity|]. split; [reflexivity|]. right. ands; auto.
Qed.
Lemma mark_pending_nil l : mark_pending [] l = l.
Proof. unfold mark_pending. cbn. apply map_id. Qed.

Lemma completable_spec s : completable s = true <-> acceptable s.
Proof. unfold acceptable. destruct s; cbn; intuition congruence. Qed.

Lemma complete_modify_cases t u u' : complete_modify t u = Ok (u', tt) ->
  acceptable (t_state u) /\ t_state u' = t_state t /\ t_completed u' = t_completed t /\ t_result u' = t_result t /\
  u' = u <| t_state := t_state u' |> <| t_completed := t_completed u' |> <| t_result := t_result u' |>.
Proof.
  unfold complete_modify. destruct (completable (t_state u)) eqn:E; [|discriminate].
  intros H. injection H as <-. apply completable_spec in E. ands; auto.
Qed.
Lemma noerr_complete t : noerr (complete_modify t).
Proof. intros u. unfold complete_modify. destruct (completable _); exact I. Qed.
Lemma noerr_bump : noerr bump_parallel.
Proof. intros u. unfold bump_parallel. destruct (t_parallel u); exact I. Qed.
Lemma noerr_advance t : noerr (advance_job t).
Proof. intros u. unfold advance_job. destruct (_ =? _); exact I. Qed.
Lemma noerr_modi {X} (f : X -> X) : noerr (modi f).
Proof. intros u. exact I. Qed.

Lemma find_put_task u u' i l : t_id u' = i -> tfind t_id i l = Some u -> tfind t_id i (put_task u' l) = Some u'.
Proof. intros <- H. rewrite put_task_t. eapply tfind_put_same; exact H. Qed.
Lemma find_put_task_other u' i l : i <> t_id u' -> tfind t_id i (put_task u' l) = tfind t_id i l.
Proof. intros H. rewrite put_task_t. now apply tfind_put_other. Qed.
Lemma find_put_job u u' i l : j_id u' = i -> tfind j_id i l = Some u -> tfind j_id i (put_job u' l) = Some u'.
Proof. intros <- H. rewrite put_job_t. eapply tfind_put_same; exact H. Qed.
Lemma find_put_job_other u' i l : i <> j_id u' -> tfind j_id i (put_job u' l) = tfind j_id i l.
Proof. intros H. rewrite put_job_t. now apply tfind_put_other. Qed.

(** The job context. *)
Lemma context_after_row t u c c' : t_var u = t_var t -> t_result u = t_result t -> context_after t c c' -> context_after u c c'.
Proof. unfold context_after. intros -> ->. auto. Qed.

(** What threads know about the task they handle. *)
(** the declared sub-job is detached *)
Definition detached_of (t : task) : bool := match t_subjob t with Some s => s_detached s | None => false end.
Definition kn (w : world) (t : task) : Prop :=
  task_ok t /\ exists u, find_task (t_id t) w = Some u /\ about t u /\ t_var u = t_var t /\
    attempts_of u = attempts_of t /\ 0 <= count_of t /\ detached_of u = detached_of t.

Definition same (w w' : world) : Prop := w_tasks w' = w_tasks w /\ w_jobs w' = w_jobs w.

Definition done_by (w w' : world) (t : task) : Prop :=
  exists u u', find_task (t_id t) w = Some u /\ find_task (t_id t) w' = Some u' /\ recorded_row u u' /\
    (record_top w w' u u' \/ record_child w w' u u') /\ t_state u' = t_state t /\ t_result u' = t_result t.
Lemma done_records w w' t : done_by w w' t -> records w w' (t_id t).
Proof. intros (u & u' & A & B & C & D & _). exists u, u'. auto. Qed.

Lemma inv_row w i u : Inv w -> find_task i w = Some u -> task_ok u /\ t_id u = i /\ parent_known w u /\ exists j, find_job (t_job u) w = Some j.
Proof.
  intros HI E. pose proof (tfind_key _ _ _ _ E). apply tfind_in in E. destruct (inv_tasks _ HI _ E) as (?&_&?&?). auto.
Qed.
Lemma inv_jrow w i u : Inv w -> find_job i w = Some u -> job_ok u /\ j_id u = i.
Proof. intros HI E. pose proof (tfind_key _ _ _ _ E). apply tfind_in in E. destruct (inv_jobs _ HI _ E). auto. Qed.

Lemma tx_top t w w' r : Inv w -> kn w t -> completion t -> t_parent t = noid ->
  a_with_tx (a_complete_top t) w = (w', r) ->
  w_hist w' = w_hist w /\ w_fresh w' = w_fresh w /\
  ((notok r /\ same w w') \/ (r = Ok tt /\ done_by w w' t)).
Proof.
  intros HI (Hok & u0 & Hu0 & Hab & Hvar & _) Hc Hp E. apply with_tx_cases in E as (w1 & r1 & Eb & Eh & Ef & Hcase).
  unfold a_complete_top, abind in Eb.
  destruct (a_update_task (t_id t) (complete_modify t) (w <| w_auto := [] |>)) as [w2 r2] eqn:E2.
  apply upd_task_cases in E2 as (J2 & H2 & A2 & F2 & Hc2); [|apply noerr_complete].
  cbn in J2, H2, A2, F2.
  destruct Hc2 as [[Hn T2]|(u & u' & [] & -> & Hu & Em & T2)].
  { assert (E1 : w1 = w2 /\ notok r1) by (destruct r2 as [|? [|]| |]; try contradiction; injection Eb as <- <-; auto).
    destruct E1 as [-> Hn1]. rewrite Eh, Ef, H2, F2. ands; auto. left.
    destruct Hcase as [(a & -> & _)|(T & J & Hx)]; [contradiction|]. split; [auto|].
    unfold same. rewrite T, J, A2, mark_pending_nil. auto. }
  apply upd_job_cases in Eb as (T3 & H3 & A3 & F3 & Hc3); [|apply noerr_advance].
  rewrite Eh, Ef, H3, H2, F3, F2. ands; auto.
  destruct Hc3 as [[Hn J3]|(j & j' & [] & -> & Hj & Ea & J3)].
  { left. destruct Hcase as [(a & -> & _)|(T & J & Hx)]; [contradiction|]. split; [auto|].
    unfold same. rewrite T, J, A3, A2, mark_pending_nil. auto. }
  destruct Hcase as [(a & Ea' & -> & T & J)|(T & J & Hx)].
  2:{ left. split; [apply Hx; eauto|]. unfold same. rewrite T, J, A3, A2, mark_pending_nil. auto. }
  right. destruct a. split; [reflexivity|].
  change (find_task (t_id t) (w <| w_auto := [] |>)) with (find_task (t_id t) w) in Hu.
  assert (u0 = u) by congruence. subst u0.
  assert (Hj' : find_job (t_job t) w = Some j) by (unfold find_job in *; now rewrite <- J2).
  destruct (inv_jrow _ _ _ HI Hj') as [Hjok Hjid].
  apply complete_modify_cases in Em as (M1 & M2 & M3 & M4 & M5).
  assert (Huid : t_id u' = t_id t) by (rewrite M5; apply (inv_row _ _ _ HI Hu)).
  change (w_tasks (w <| w_auto := [] |>)) with (w_tasks w) in T2.
  exists u, u'. split; [exact Hu|]. split; [|split; [|split; [left|split; [exact M2|exact M4]]]].
  - rewrite find_task_t, T, T3, T2. eapply find_put_task; [exact Huid|exact Hu].
  - split; [exact M1|split; [|exact M5]]. unfold completion. rewrite M2. exact Hc.
  - destruct Hab as (Hi & Hjb & Hpr & _). unfold record_top. split; [congruence|]. rewrite Hjb, Hi.
    unfold advance_job in Ea. destruct (j_taskcount j =? 0) eqn:Ez; [discriminate|]. injection Ea as <-.
    apply Z.eqb_neq in Ez. fold (adv t j) in J3. exists j, (adv t j). split; [exact Hj'|]. split; [|split; [|split]].
    + rewrite find_job_t, J, J3, J2. eapply find_put_job; [exact Hjid|exact Hj'].
    + destruct Hjok as (_ & _ & Hcnt & _ & _ & Hpos).
      destruct (adv_spec t j Hpos ltac:(lia)) as (A1 & A2' & A3' & A4). unfold advanced. ands; auto.
      eapply context_after_row; [| |exact A3']; [rewrite M5; exact Hvar|exact M4].
    + intros i Hi'. rewrite !find_task_t, T, T3, T2. apply find_put_task_other. congruence.
    + intros i Hi'. rewrite !find_job_t, J, J3, J2. apply find_put_job_other. change (j_id (adv t j)) with (j_id j). congruence.
Qed.

Definition full (w : world) (i : id) : Prop := exists p, find_task i w = Some p /\ width_of p <= count_of p.

Lemma put_ctx_cases t w w1 r j : find_job (t_job t) w = Some j -> a_put_context t w = (w1, r) ->
  w_tasks w1 = w_tasks w /\ w_hist w1 = w_hist w /\ w_auto w1 = w_auto w /\ w_fresh w1 = w_fresh w /\
  ((notok r /\ w_jobs w1 = w_jobs w) \/
   (r = Ok tt /\ find_job (t_job t) w1 = Some (j <| j_context := ctx_put t (j_context j) |>) /\
    forall i, i <> t_job t -> find_job i w1 = find_job i w)).
Proof.
  intros Hj. unfold a_put_context. destruct (nonempty (t_result t) && nonempty (t_var t))%bool eqn:E.
  - intros H. apply upd_job_cases in H as (A & B & C & D & F); [|apply noerr_modi]. ands; auto.
    destruct F as [F|(u & u' & [] & -> & Hu & Em & J)]; [auto|right]. split; [reflexivity|].
    assert (u = j) by congruence. subst u. injection Em as <-. pose proof (tfind_key _ _ _ _ Hj) as Hid. split.
    + rewrite find_job_t, J. eapply find_put_job; [exact Hid|exact Hj].
    + intros i Hi. rewrite !find_job_t, J. apply find_put_job_other. cbn. congruence.
  - intros H. injection H as <- <-. ands; auto. right. split; [reflexivity|]. split; [|auto].
    rewrite Hj. f_equal. unfold ctx_put. rewrite E. destruct j; reflexivity.
Qed.

Lemma bump_parallel_cases p p' last : bump_parallel p = Ok (p', last) ->
  is_some (t_parallel p) = true /\ count_of p' = count_of p + 1 /\ width_of p' = width_of p /\ t_each p' = t_each p /\
  p' = p <| t_parallel := t_parallel p' |> <| t_each := t_each p' |> /\ (last = true -> width_of p' <= count_of p').
Proof.
  unfold bump_parallel, count_of, width_of. destruct (t_parallel p) as [pp|] eqn:E; [|discriminate].
  intros H. injection H as <- <-. cbn [t_parallel t_each p_completions p_tasks is_some set].
  split; [reflexivity|]. split; [reflexivity|]. split; [reflexivity|]. split; [reflexivity|].
  split; [clear E; destruct p; reflexivity|]. intros H. now apply Z.leb_le in H.
Qed.

Lemma tx_parallel t w w' r p0 : Inv w -> kn w t -> completion t -> t_parent t <> noid ->
  find_task (t_parent t) w = Some p0 -> is_some (t_parallel p0) = true ->
  a_with_tx (a_complete_parallel t) w = (w', r) ->
  w_hist w' = w_hist w /\ w_fresh w' = w_fresh w /\
  ((notok r /\ same w w') \/ (exists last, r = Ok last /\ done_by w w' t /\ (last = true -> full w' (t_parent t)))).
Proof.
  intros HI (Hok & u0 & Hu0 & Hab & Hvar & _) Hc Hp Hp0 Hpp E.
  apply with_tx_cases in E as (w1 & r1 & Eb & Eh & Ef & Hcase).
  unfold a_complete_parallel, abind in Eb.
  destruct (a_update_task (t_id t) (complete_modify t) (w <| w_auto := [] |>)) as [w2 r2] eqn:E2.
  apply upd_task_cases in E2 as (J2 & H2 & A2 & F2 & Hc2); [|apply noerr_complete].
  cbn in J2, H2, A2, F2.
  destruct Hc2 as [[Hn T2]|(u & u' & [] & -> & Hu & Em & T2)].
  { assert (E1 : w1 = w2 /\ notok r1) by (destruct r2 as [|? [|]| |]; try contradiction; injection Eb as <- <-; auto).
    destruct E1 as [-> Hn1]. rewrite Eh, Ef, H2, F2. ands; auto. left.
    destruct Hcase as [(a & -> & _)|(T & J & Hx)]; [contradiction|]. split; [auto|].
    unfold same. rewrite T, J, A2, mark_pending_nil. auto. }
  change (find_task (t_id t) (w <| w_auto := [] |>)) with (find_task (t_id t) w) in Hu.
  change (w_tasks (w <| w_auto := [] |>)) with (w_tasks w) in T2.
  assert (u0 = u) by congruence. subst u0.
  apply complete_modify_cases in Em as (M1 & M2 & M3 & M4 & M5).
  destruct (inv_row _ _ _ HI Hu) as (_ & Huid0 & Hpk & j & Hj).
  assert (Huid : t_id u' = t_id t) by (rewrite M5; exact Huid0).
  destruct Hab as (_ & Hjb & Hpr & _).
  assert (Hne : t_parent t <> t_id t).
  { unfold parent_known in Hpk. rewrite Hpr in Hpk. destruct (Hpk Hp) as [Hlt _]. lia. }
  destruct (a_update_task (t_parent t) bump_parallel w2) as [w3 r3] eqn:E3.
  apply upd_task_cases in E3 as (J3 & H3 & A3 & F3 & Hc3); [|apply noerr_bump].
  destruct Hc3 as [[Hn T3]|(p & p' & last & -> & Hpw & Eb2 & T3)].
  { assert (E1 : w1 = w3 /\ notok r1) by (destruct r3 as [|? [|]| |]; try contradiction; injection Eb as <- <-; auto).
    destruct E1 as [-> Hn1]. rewrite Eh, Ef, H3, H2, F3, F2. ands; auto. left.
    destruct Hcase as [(a & -> & _)|(T & J & Hx)]; [contradiction|]. split; [auto|].
    unfold same. rewrite T, J, A3, A2, mark_pending_nil. auto. }
  assert (Hpe : p = p0).
  { rewrite find_task_t, T2, find_put_task_other in Hpw by congruence. rewrite find_task_t in Hp0. congruence. }
  subst p0.
  assert (Hj3 : find_job (t_job t) w3 = Some j) by (unfold find_job in *; rewrite J3, J2, <- Hjb; exact Hj).
  destruct (a_put_context t w3) as [w4 r4] eqn:E4.
  apply (put_ctx_cases t w3 w4 r4 j Hj3) in E4 as (T4 & H4 & A4 & F4 & Hc4).
  destruct Hc4 as [[Hn J4]|(-> & Hj4 & Hjo4)].
  { assert (E1 : w1 = w4 /\ notok r1) by (destruct r4 as [|? [|]| |]; try contradiction; injection Eb as <- <-; auto).
    destruct E1 as [-> Hn1]. rewrite Eh, Ef, H4, H3, H2, F4, F3, F2. ands; auto. left.
    destruct Hcase as [(a & -> & _)|(T & J & Hx)]; [contradiction|]. split; [auto|].
    unfold same. rewrite T, J, A4, A3, A2, mark_pending_nil. auto. }
  cbn in Eb. injection Eb as <- <-. rewrite Eh, Ef, H4, H3, H2, F4, F3, F2. ands; auto.
  destruct Hcase as [(a & Ea' & -> & T & J)|(T & J & Hx)].
  2:{ left. split; [apply Hx; eauto|]. unfold same. rewrite T, J, A4, A3, A2, mark_pending_nil. auto. }
  injection Ea' as <-. right. exists last. split; [reflexivity|].
  destruct (bump_parallel_cases _ _ _ Eb2) as (B1 & B2 & B3 & B4 & B5 & B6).
  assert (Hpid : t_id p' = t_parent t) by (rewrite B5; apply (inv_row _ _ _ HI Hp0)).
  assert (Hfp : find_task (t_parent t) w' = Some p').
  { rewrite find_task_t, T, T4, T3. eapply find_put_task; [exact Hpid|exact Hpw]. }
  split; [|intros Hl; exists p'; auto].
  exists u, u'. split; [exact Hu|]. split; [|split; [|split; [right|split; [exact M2|exact M4]]]].
  - rewrite find_task_t, T, T4, T3, find_put_task_other by congruence. rewrite T2. eapply find_put_task; [exact Huid|exact Hu].
  - split; [exact M1|split; [|exact M5]]. unfold completion. rewrite M2. exact Hc.
  - unfold record_child. rewrite Hpr, Hjb, Huid0. split; [exact Hp|].
    exists p, p', j, (j <| j_context := ctx_put t (j_context j) |>), (@None id).
    split; [exact Hp0|]. split; [exact Hfp|]. split; [exact Hne|]. split; [exact B2|]. split; [exact B3|]. split; [exact B5|].
    split; [now rewrite <- Hjb|]. split; [|split; [|split; [reflexivity|split; [|split; [exact I|split]]]]].
    + rewrite <- Hj4. unfold find_job. now rewrite J.
    + eapply context_after_row; [| |apply ctx_put_spec]; [rewrite M5; exact Hvar|exact M4].
    + intros i Hi. transitivity (find_job i w4); [unfold find_job; now rewrite J|]. rewrite (Hjo4 i Hi). unfold find_job. now rewrite J3, J2.
    + intros i Hi1 Hi2 _. rewrite !find_task_t, T, T4, T3, find_put_task_other by congruence. rewrite T2. apply find_put_task_other. congruence.
    + rewrite B4. destruct (t_parallel p) eqn:Epp; [auto|]. discriminate Hpp.
Qed.

(** Each. *)
Opaque put_task.
Definition rel_msg (nx : task) : msg := MTask QUEUE_PENDING (nx <| t_state := TPending |>).
Lemma release_cases pid w w1 r : a_release_next pid w = (w1, r) ->
  w_jobs w1 = w_jobs w /\ w_fresh w1 = w_fresh w /\
  ((notok r /\ w_tasks w1 = w_tasks w /\ w_hist w1 = w_hist w /\ w_auto w1 = w_auto w) \/
   exists nx u, next_created pid w = Some nx /\ find_task (t_id nx) w = Some u /\ 
     w_tasks w1 = put_task (u <| t_state := TPending |>) (w_tasks w) /\ w_auto w1 = t_id nx :: w_auto w /\
     ((notok r /\ w_hist w1 = w_hist w) \/ (r = Ok tt /\ w_hist w1 = w_hist w ++ [rel_msg nx]))).
Proof.
  unfold a_release_next, abind. 
  destruct (a_get_next pid w) as [w2 r2] eqn:E2. unfold a_get_next in E2.
  match type of E2 with faulty ?g w = _ => destruct (faulty_cases g w) as (fs & [E|E]); rewrite E in E2; clear E end.
  { injection E2 as <- <-. intros E. injection E as <- <-. ands; auto. left. ands; auto. exact I. }
  change (next_created pid (w <| w_faults := fs |>)) with (next_created pid w) in E2.
  destruct (next_created pid w) as [nx|] eqn:En; injection E2 as <- <-.
  2:{ intros E. injection E as <- <-. ands; auto. left. ands; auto. exact I. }
  destruct (a_update_task (t_id nx) (modi (fun nu => nu <| t_state := TPending |>)) (w <| w_faults := fs |>)) as [w3 r3] eqn:E3.
  apply upd_task_cases in E3 as (J3 & H3 & A3 & F3 & C3); [|apply noerr_modi].
  destruct C3 as [[Hn T3]|(u & u' & [] & -> & Hu & Em & T3)].
  { intros E. assert (E1 : w1 = w3 /\ notok r) by (destruct r3 as [|? [|]| |]; try contradiction; injection E as <- <-; auto).
    destruct E1 as [-> Hn1]. ands; auto. }
  injection Em as <-. cbn [a_mark_auto]. unfold a_publish.
  match goal with |- faulty ?g ?x = _ -> _ => destruct (faulty_cases g x) as (fs' & [E|E]); rewrite E; clear E end.
  - intros E. injection E as <- <-. split; [exact J3|]. split; [exact F3|]. right. exists nx, u.
    split; [reflexivity|]. split; [exact Hu|]. split; [exact T3|]. split; [cbn; now rewrite A3|]. left. split; [exact I|exact H3].
  - intros E. injection E as <- <-. split; [exact J3|]. split; [exact F3|]. right. exists nx, u.
    split; [reflexivity|]. split; [exact Hu|]. split; [exact T3|]. split; [cbn; now rewrite A3|]. right. split; [reflexivity|].
    cbn. now rewrite H3.
Qed.

Definition bumped (e : eachT task) : eachT task := e <| e_completions := e_completions e + 1 |> <| e_index := e_index e + 1 |>.
Definition wants (e : eachT task) : bool :=
  (negb (e_size e <=? e_completions e + 1) && (0 <? e_concurrency e) && (e_index e <? e_size e))%bool.
Lemma bump_each_cases pid w w1 r : a_bump_each pid w = (w1, r) ->
  w_jobs w1 = w_jobs w /\ w_fresh w1 = w_fresh w /\
  ((notok r /\ w_hist w1 = w_hist w /\ ((w_tasks w1 = w_tasks w /\ w_auto w1 = w_auto w) \/
     exists nx, next_created pid w = Some nx /\ w_auto w1 = t_id nx :: w_auto w)) \/
   exists u e, r = Ok (e_size e <=? e_completions e + 1) /\ find_task pid w = Some u /\ t_each u = Some e /\
    ((wants e = false /\ w_hist w1 = w_hist w /\ w_auto w1 = w_auto w /\
      w_tasks w1 = put_task (u <| t_each := Some (bumped e) |>) (w_tasks w)) \/
     exists nx c, wants e = true /\ next_created pid w = Some nx /\ find_task (t_id nx) w = Some c /\ 
       w_hist w1 = w_hist w ++ [rel_msg nx] /\ w_auto w1 = t_id nx :: w_auto w /\
       w_tasks w1 = put_task (u <| t_each := Some (bumped e) |>) (put_task (c <| t_state := TPending |>) (w_tasks w)))).
Proof.
  unfold a_bump_each.
  match goal with |- faulty ?g w = _ -> _ => destruct (faulty_cases g w) as (fs & [E|E]); rewrite E; clear E end.
  { intros E. injection E as <- <-. ands; auto. left. ands; auto. exact I. }
  change (find_task pid (w <| w_faults := fs |>)) with (find_task pid w).
  destruct (find_task pid w) as [u|] eqn:Eu.
  2:{ intros E. injection E as <- <-. ands; auto. left. ands; auto. exact I. }
  destruct (t_each u) as [e|] eqn:Ee.
  2:{ intros E. injection E as <- <-. ands; auto. left. ands; auto. exact I. }
  cbv zeta. fold (wants e). destruct (wants e) eqn:Ew.
  - assert (Hid : t_id u = pid) by (eapply tfind_key; exact Eu). rewrite Hid.
    destruct (a_release_next pid (w <| w_faults := fs |>)) as [w2 r2] eqn:E2.
    apply release_cases in E2 as (J2 & F2 & [(Hn & T2 & H2 & A2)|(nx & c & Hnx & Hc & T2 & A2 & Hr)]).
    + intros E. assert (E1 : w1 = w2 /\ notok r) by (destruct r2 as [|? [|]| |]; try contradiction; injection E as <- <-; auto).
      destruct E1 as [-> Hn1]. split; [exact J2|]. split; [exact F2|]. left. split; [exact Hn1|]. split; [exact H2|]. left. auto.
    + destruct Hr as [[Hn H2]|[-> H2]].
      * intros E. assert (E1 : w1 = w2 /\ notok r) by (destruct r2 as [|? [|]| |]; try contradiction; injection E as <- <-; auto).
        destruct E1 as [-> Hn1]. split; [exact J2|]. split; [exact F2|]. left. split; [exact Hn1|]. split; [exact H2|]. right. exists nx. auto.
      * intros E. injection E as <- <-. split; [exact J2|]. split; [exact F2|]. right. exists u, e. ands; auto.
        right. exists nx, c. split; [exact Ew|]. split; [exact Hnx|]. split; [exact Hc|]. split; [exact H2|]. split; [exact A2|].
        cbn [w_tasks]. unfold set; cbn [w_tasks]. now rewrite T2.
  - intros E. injection E as <- <-. ands; auto. right. exists u, e. ands; auto.
Qed.

Lemma next_created_row w pid nx : NoDup (map t_id (w_tasks w)) -> next_created pid w = Some nx ->
  find_task (t_id nx) w = Some nx /\ t_parent nx = pid /\ t_state nx = TCreated.
Proof.
  intros HN E. unfold next_created in E. apply find_some in E as [Hin Hb].
  apply andb_true_iff in Hb as [B1 B2]. apply N.eqb_eq in B1. split; [|split; [exact B1|destruct (t_state nx); easy]].
  rewrite find_task_t. apply tfind_nodup; auto.
Qed.
Lemma mark_pending_find x l i : tfind t_id i (mark_pending [x] l) =
  match tfind t_id i l with Some t => Some (if N.eqb i x then t <| t_state := TPending |> else t) | None => None end.
Proof.
  unfold mark_pending. induction l as [|t l IH]; [reflexivity|]. cbn. rewrite orb_false_r.
  destruct (N.eqb (t_id t) x) eqn:E1; cbn.
  - destruct (N.eqb (t_id t) i) eqn:E2; [|exact IH]. apply N.eqb_eq in E1, E2. subst. now rewrite N.eqb_refl.
  - destruct (N.eqb (t_id t) i) eqn:E2; [|exact IH]. apply N.eqb_eq in E2. subst. now rewrite E1.
Qed.

Lemma wants_spec e : wants e = true <-> e_completions e + 1 < e_size e /\ 0 < e_concurrency e /\ e_index e < e_size e.
Proof. unfold wants. rewrite !andb_true_iff, negb_true_iff, Z.leb_gt, !Z.ltb_lt. tauto. Qed.

Lemma tx_each t w w' r p0 : Inv w -> kn w t -> completion t -> t_parent t <> noid ->
  find_task (t_parent t) w = Some p0 -> t_parallel p0 = None ->
  a_with_tx (a_complete_each t) w = (w', r) ->
  w_fresh w' = w_fresh w /\
  (w_hist w' = w_hist w \/ exists nx, find_task (t_id nx) w = Some nx /\ t_state nx = TCreated /\ w_hist w' = w_hist w ++ [rel_msg nx]) /\
  ((notok r /\ (same w w' \/ leaks w w')) \/ (exists last, r = Ok last /\ done_by w w' t /\ (last = true -> full w' (t_parent t)))).
Proof.
  intros HI (Hok & u0 & Hu0 & Hab & Hvar & _) Hc Hp Hp0 Hpp E.
  apply with_tx_cases in E as (w1 & r1 & Eb & Eh & Ef & Hcase).
  unfold a_complete_each, abind in Eb.
  destruct (a_update_task (t_id t) (complete_modify t) (w <| w_auto := [] |>)) as [w2 r2] eqn:E2.
  apply upd_task_cases in E2 as (J2 & H2 & A2 & F2 & Hc2); [|apply noerr_complete].
  cbn in J2, H2, A2, F2.
  destruct Hc2 as [[Hn T2]|(u & u' & [] & -> & Hu & Em & T2)].
  { assert (E1 : w1 = w2 /\ notok r1) by (destruct r2 as [|? [|]| |]; try contradiction; injection Eb as <- <-; auto).
    destruct E1 as [-> Hn1]. rewrite Eh, Ef, H2, F2. ands; auto. left.
    destruct Hcase as [(a & -> & _)|(T & J & Hx)]; [contradiction|]. split; [auto|]. left.
    unfold same. rewrite T, J, A2, mark_pending_nil. auto. }
  change (find_task (t_id t) (w <| w_auto := [] |>)) with (find_task (t_id t) w) in Hu.
  change (w_tasks (w <| w_auto := [] |>)) with (w_tasks w) in T2.
  assert (u0 = u) by congruence. subst u0.
  apply complete_modify_cases in Em as (M1 & M2 & M3 & M4 & M5).
  destruct (inv_row _ _ _ HI Hu) as (_ & Huid0 & Hpk & j & Hj).
  assert (Huid : t_id u' = t_id t) by (rewrite M5; exact Huid0).
  destruct Hab as (_ & Hjb & Hpr & _).
  assert (Hne : t_parent t <> t_id t).
  { unfold parent_known in Hpk. rewrite Hpr in Hpk. destruct (Hpk Hp) as [Hlt _]. lia. }
  assert (HN2 : NoDup (map t_id (w_tasks w2))).
  { rewrite T2, put_task_t, tput_keys. apply HI. }
  assert (Hnx2 : forall nx, next_created (t_parent t) w2 = Some nx ->
            find_task (t_id nx) w2 = Some nx /\ find_task (t_id nx) w = Some nx /\ t_parent nx = t_parent t /\ t_state nx = TCreated /\
            t_id nx <> t_id t /\ t_id nx <> t_parent t).
  { intros nx En. destruct (next_created_row _ _ _ HN2 En) as (N1 & N2 & N3).
    assert (N4 : t_id nx <> t_id t).
    { intros X. rewrite find_task_t, T2, X, (find_put_task u u' (t_id t) _ Huid Hu) in N1. injection N1 as <-.
      rewrite M2 in N3. unfold completion in Hc. destruct Hc; congruence. }
    assert (N5 : find_task (t_id nx) w = Some nx).
    { rewrite find_task_t, T2, find_put_task_other in N1 by congruence. exact N1. }
    ands; auto. destruct (inv_row _ _ _ HI N5) as (_ & _ & K & _).
    unfold parent_known in K. rewrite N2 in K. specialize (K Hp). destruct K as [K _]. lia. }
  assert (Hleak : forall nx ww, next_created (t_parent t) w2 = Some nx -> w_tasks ww = mark_pending [t_id nx] (w_tasks w) ->
             w_jobs ww = w_jobs w -> leaks w ww).
  { intros nx ww En T J. destruct (Hnx2 nx En) as (N1 & N2 & N3 & N4 & N5 & N6). split.
    - intros i. unfold find_job. now rewrite J.
    - exists (t_id nx), nx. split; [exact N2|]. split; [exact N4|]. split; [congruence|]. split.
      + rewrite find_task_t, T, mark_pending_find. rewrite find_task_t in N2. rewrite N2, N.eqb_refl. reflexivity.
      + intros i Hi. rewrite !find_task_t, T, mark_pending_find. rewrite (proj2 (N.eqb_neq _ _) Hi).
        destruct (tfind t_id i (w_tasks w)); reflexivity. }
  destruct (a_bump_each (t_parent t) w2) as [w3 r3] eqn:E3.
  apply bump_each_cases in E3 as (J3 & F3 & [(Hn & H3 & Hd)|(p & e & -> & Hpw & He & Hd)]).
  { assert (E1 : w1 = w3 /\ notok r1) by (destruct r3 as [|? [|]| |]; try contradiction; injection Eb as <- <-; auto).
    destruct E1 as [-> Hn1]. rewrite Eh, Ef, F3, F2, H3, H2. split; [reflexivity|]. split; [now left|]. left.
    destruct Hcase as [(a & -> & _)|(T & J & Hx)]; [contradiction|]. split; [auto|].
    destruct Hd as [[T3 A3]|(nx & En & A3)].
    - left. unfold same. rewrite T, J, A3, A2, mark_pending_nil. auto.
    - right. apply (Hleak nx); auto. rewrite T, A3, A2. reflexivity. }
  assert (Hpe : p = p0).
  { rewrite find_task_t, T2, find_put_task_other in Hpw by congruence. rewrite find_task_t in Hp0. congruence. }
  subst p0. set (p' := p <| t_each := Some (bumped e) |>) in Hd.
  assert (Hpid : t_id p' = t_parent t) by apply (inv_row _ _ _ HI Hp0).
  assert (Hj3 : find_job (t_job t) w3 = Some j) by (unfold find_job in *; rewrite J3, J2, <- Hjb; exact Hj).
  destruct (a_put_context t w3) as [w4 r4] eqn:E4.
  apply (put_ctx_cases t w3 w4 r4 j Hj3) in E4 as (T4 & H4 & A4 & F4 & Hc4).
  assert (Hhist : w_hist w3 = w_hist w \/
     exists nx, find_task (t_id nx) w = Some nx /\ t_state nx = TCreated /\ w_hist w3 = w_hist w ++ [rel_msg nx]).
  { destruct Hd as [(_ & H3 & _)|(nx & c & _ & En & _ & H3 & _)]; [left; congruence|right].
    exists nx. destruct (Hnx2 nx En) as (N1 & N2 & N3 & N4 & N5 & N6). ands; auto. congruence. }
  assert (Hroll : forall ww, w_tasks ww = mark_pending (w_auto w3) (w_tasks w) -> w_jobs ww = w_jobs w -> same w ww \/ leaks w ww).
  { intros ww T J. destruct Hd as [(_ & _ & A3 & _)|(nx & c & _ & En & _ & _ & A3 & _)].
    - left. unfold same. rewrite T, J, A3, A2, mark_pending_nil. auto.
    - right. apply (Hleak nx); auto. rewrite T, A3, A2. reflexivity. }
  destruct Hc4 as [[Hn J4]|(-> & Hj4 & Hjo4)].
  { assert (E1 : w1 = w4 /\ notok r1) by (destruct r4 as [|? [|]| |]; try contradiction; injection Eb as <- <-; auto).
    destruct E1 as [-> Hn1]. rewrite Eh, Ef, H4, F4, F3, F2. split; [reflexivity|]. split; [exact Hhist|]. left.
    destruct Hcase as [(a & -> & _)|(T & J & Hx)]; [contradiction|]. split; [auto|]. apply Hroll; congruence. }
  cbn in Eb. injection Eb as <- <-. rewrite Eh, Ef, H4, F4, F3, F2. split; [reflexivity|]. split; [exact Hhist|].
  destruct Hcase as [(a & Ea' & -> & T & J)|(T & J & Hx)].
  2:{ left. split; [apply Hx; eauto|]. apply Hroll; congruence. }
  injection Ea' as <-. right. eexists. split; [reflexivity|].
  assert (Hout : exists rel : option id,
     find_task (t_id t) w' = Some u' /\ find_task (t_parent t) w' = Some p' /\
     match rel with
     | Some x => x <> t_id t /\ x <> t_parent t /\ exists c, find_task x w = Some c /\ t_parent c = t_parent t /\
                  t_state c = TCreated /\ find_task x w' = Some (c <| t_state := TPending |>)
     | None => True
     end /\
     (forall i, i <> t_id t -> i <> t_parent t -> Some i <> rel -> find_task i w' = find_task i w) /\ (rel <> None <-> wants e = true)).
  { destruct Hd as [(Hw & _ & _ & T3)|(nx & c & Hw & En & Ec & _ & _ & T3)].
    - exists None. split; [|split; [|split; [exact I|split; [|rewrite Hw; easy]]]].
      + rewrite find_task_t, T, T4, T3, find_put_task_other by congruence. rewrite T2. eapply find_put_task; [exact Huid|exact Hu].
      + rewrite find_task_t, T, T4, T3. eapply find_put_task; [exact Hpid|exact Hpw].
      + intros i Hi1 Hi2 _. rewrite !find_task_t, T, T4, T3, find_put_task_other by congruence. rewrite T2. apply find_put_task_other. congruence.
    - destruct (Hnx2 nx En) as (N1 & N2 & N3 & N4 & N5 & N6). assert (c = nx) by congruence. subst c.
      set (n' := nx <| t_state := TPending |>) in T3. assert (Hn' : t_id n' = t_id nx) by reflexivity.
      exists (Some (t_id nx)). split; [|split; [|split; [|split; [|split; [intros _; exact Hw|easy]]]]].
      + rewrite find_task_t, T, T4, T3, !find_put_task_other by congruence. rewrite T2. eapply find_put_task; [exact Huid|exact Hu].
      + rewrite find_task_t, T, T4, T3. eapply find_put_task; [exact Hpid|].
        rewrite find_put_task_other by congruence. exact Hpw.
      + split; [exact N5|]. split; [exact N6|]. exists nx. split; [exact N2|]. split; [exact N3|]. split; [exact N4|].
        rewrite find_task_t, T, T4, T3, find_put_task_other by congruence. eapply find_put_task; [exact Hn'|exact N1].
      + intros i Hi1 Hi2 Hi3. rewrite !find_task_t, T, T4, T3, !find_put_task_other by congruence. rewrite T2. apply find_put_task_other. congruence. }
  destruct Hout as (rel & R1 & R2 & R3 & R4 & R5).
  assert (Hcnt : count_of p' = count_of p + 1 /\ width_of p' = width_of p /\ width_of p = e_size e /\ count_of p = e_completions e).
  { unfold count_of, width_of. change (t_parallel p') with (t_parallel p). rewrite Hpp, He. auto. }
  destruct Hcnt as (C1 & C2 & C3 & C4).
  split; [|intros Hl; exists p'; split; [exact R2|]; apply Z.leb_le in Hl; lia].
  exists u, u'. split; [exact Hu|]. split; [exact R1|]. split; [|split; [right|split; [exact M2|exact M4]]].
  - split; [exact M1|split; [|exact M5]]. unfold completion. rewrite M2. exact Hc.
  - unfold record_child. rewrite Hpr, Hjb, Huid0. split; [exact Hp|].
    exists p, p', j, (j <| j_context := ctx_put t (j_context j) |>), rel.
    split; [exact Hp0|]. split; [exact R2|]. split; [exact Hne|]. split; [exact C1|]. split; [exact C2|].
    split; [unfold p'; clear; destruct p; reflexivity|].
    split; [now rewrite <- Hjb|]. split; [|split; [|split; [reflexivity|split; [|split; [exact R3|split; [exact R4|]]]]]].
    + rewrite <- Hj4. unfold find_job. now rewrite J.
    + eapply context_after_row; [| |apply ctx_put_spec]; [rewrite M5; exact Hvar|exact M4].
    + intros i Hi. transitivity (find_job i w4); [unfold find_job; now rewrite J|]. rewrite (Hjo4 i Hi). unfold find_job. now rewrite J3, J2.
    + rewrite Hpp, He. change (t_each p') with (Some (bumped e)). cbn iota. split; [reflexivity|]. rewrite R5. apply wants_spec.
Qed.
