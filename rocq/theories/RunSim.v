(** Proofs for C72, third part: the handlers, run one at a time without failures, make the steps of AbsLive.v. *)
From Verif Require Export SpecRun AbsLive RunEval.
From Verif Require Import SeqTools EvalProofs InvSched InvMsgs PropsSched PropsFan PropsComposite PropsComplete PropsState Live.
From Coq Require Import Permutation.
Open Scope string_scope.
Open Scope list_scope.
Open Scope Z_scope.

(** ** The abstract picture of rows, jobs and messages *)
Definition vst (u : task) : ast :=
  match t_state u with
  | TCreated => ACr (weight u)
  | TPending => APe (weight u)
  | TScheduled => match t_parallel u, t_each u, t_subjob u with None, None, None => AWo | _, _, _ => ABad end
  | TRunning =>
      match t_parallel u with
      | Some p => APar (Z.of_nat (length (p_tasks p))) (p_completions p)
      | None => match t_each u with
                | Some e => AEa (e_size e) (e_completions e) (e_concurrency e) (e_index e)
                | None => match t_subjob u with Some s => if s_detached s then ADe else ASu (s_id s) | None => AWo end
                end
      end
  | TSkipped => match t_completed u with None => ASk | Some _ => AFi end
  | TCompleted => AFi
  | _ => ABad
  end.
Definition view (u : task) : arow := mkRow (t_id u) (t_job u) (t_parent u) (t_position u) (vst u).
Definition jst (s : jstate) : ajst := match s with JPending => QPe | JScheduled | JRunning => QLi | JCompleted => QCo | _ => QBad end.
Definition jview (j : job) : ajob := mkAJob (j_id j) (j_parent j) (map weight (j_tasks j)) (j_position j) (jst (j_state j)).
Definition tok (m : msg) : atok :=
  match m with
  | MTask q t => if String.eqb q QUEUE_PENDING then KP (t_id t) (weight t) else if String.eqb q QUEUE_COMPLETED then KC (t_id t)
                 else if is_task_queue q then KW (t_id t) else if String.eqb q QUEUE_STARTED then KO 1 else KO 0
  | MJob j => KJ (j_id j) (map weight (j_tasks j))
  | _ => KO 0
  end.
Definition alpha (w : world) (ts : list task) (js : list job) (U : list msg) : abs := mkAbs (map view ts) (map jview js) (map tok U) (w_fresh w).

Lemma rfind_map i ts : rfind i (map view ts) = option_map view (kfind t_id i ts).
Proof. unfold kfind. induction ts as [|x ts IH]; [reflexivity|]. cbn. destruct (N.eqb (t_id x) i); [reflexivity|exact IH]. Qed.
Lemma qfind_map i js : qfind i (map jview js) = option_map jview (kfind j_id i js).
Proof. unfold kfind. induction js as [|x ts IH]; [reflexivity|]. cbn. destruct (N.eqb (j_id x) i); [reflexivity|exact IH]. Qed.
Lemma rfind_view i ts r : rfind i (map view ts) = Some r -> exists u, kfind t_id i ts = Some u /\ r = view u.
Proof. rewrite rfind_map. destruct (kfind t_id i ts); [|discriminate]. intros E. injection E as <-. eauto. Qed.
Lemma qfind_view i js r : qfind i (map jview js) = Some r -> exists u, kfind j_id i js = Some u /\ r = jview u.
Proof. rewrite qfind_map. destruct (kfind j_id i js); [|discriminate]. intros E. injection E as <-. eauto. Qed.
Lemma map_put_view u ts : map view (put_task u ts) = rput (view u) (map view ts).
Proof. unfold put_task, kput. rewrite !map_map. apply map_ext. intros x. cbn. destruct (N.eqb (t_id x) (t_id u)); reflexivity. Qed.
Lemma map_put_jview u js : map jview (put_job u js) = qput (jview u) (map jview js).
Proof. unfold put_job, kput. rewrite !map_map. apply map_ext. intros x. cbn. destruct (N.eqb (j_id x) (j_id u)); reflexivity. Qed.
Lemma map_rid ts : map r_id (map view ts) = map t_id ts. Proof. rewrite map_map. reflexivity. Qed.
Lemma map_qid js : map q_id (map jview js) = map j_id js. Proof. rewrite map_map. reflexivity. Qed.
(** replacing a row by one with the same picture *)
Lemma rput_same ts u : NoDup (map t_id ts) -> kfind t_id (t_id u) ts = Some u -> rput (view u) (map view ts) = map view ts.
Proof.
  intros Hn Hu. unfold kput. rewrite map_map. apply map_ext_in. intros x Hx. cbn. destruct (N.eqb (t_id x) (t_id u)) eqn:E; [|reflexivity].
  apply N.eqb_eq in E. apply kfind_some in Hu as [Hu _]. now rewrite (nodup_key_eq t_id ts x u Hn Hx Hu E).
Qed.
Lemma qput_same js u : NoDup (map j_id js) -> kfind j_id (j_id u) js = Some u -> qput (jview u) (map jview js) = map jview js.
Proof.
  intros Hn Hu. unfold kput. rewrite map_map. apply map_ext_in. intros x Hx. cbn. destruct (N.eqb (j_id x) (j_id u)) eqn:E; [|reflexivity].
  apply N.eqb_eq in E. apply kfind_some in Hu as [Hu _]. now rewrite (nodup_key_eq j_id js x u Hn Hx Hu E).
Qed.

(** ** What is kept from step to step *)
(** neither scheduled nor evaluated again *)
Definition clean (t : task) : Prop :=
  t_completed t = None /\
  (forall p, t_parallel t = Some p -> p_completions p = 0 /\ Forall pristine (p_tasks p)) /\
  (forall e, t_each t = Some e -> e_completions e = 0 /\ pristine (e_task e)) /\
  (forall s, t_subjob t = Some s -> Forall pristine (s_tasks s)).
Lemma pristine_clean t : pristine t -> clean t.
Proof.
  intros H. apply pristine_eq in H as (_&_&_&_&_&_&_&_&_&H&_&_&_& P & E & S). split; [exact H|]. split; [|split].
  - intros p Ep. now rewrite Ep in P.
  - intros e Ee. rewrite Ee in E. tauto.
  - intros s Es. rewrite Es in S. tauto.
Qed.
Lemma clean_identity i jb pa s pos cr d : clean d -> clean (identity i jb pa s pos cr d). Proof. intros H; exact H. Qed.
Definition before (u : task) : Prop := t_state u = TCreated \/ t_state u = TPending.
Definition same_def (t u : task) : Prop := t_parallel t = t_parallel u /\ t_each t = t_each u /\ t_subjob t = t_subjob u.
(** [u'] is a later version of the row [u] *)
Definition rel (u u' : task) : Prop := t_id u' = t_id u /\ t_job u' = t_job u /\ t_parent u' = t_parent u /\ (before u' -> before u /\ same_def u' u) /\
  (~ before u -> (t_state u' = TSkipped <-> t_state u = TSkipped)).
Definition Rel (ts ts' : list task) : Prop := forall i u, kfind t_id i ts = Some u -> exists u', kfind t_id i ts' = Some u' /\ rel u u'.
Definition jrel (j j' : job) : Prop := j_state j' = JPending -> j' = j.
Definition JRel (js js' : list job) : Prop := forall i j, kfind j_id i js = Some j -> exists j', kfind j_id i js' = Some j' /\ jrel j j'.
Lemma same_def_refl u : same_def u u. Proof. repeat split. Qed.
Lemma rel_refl u : rel u u. Proof. split; [reflexivity|]. split; [reflexivity|]. split; [reflexivity|]. split; [intros H; split; [exact H|apply same_def_refl]|intros _; reflexivity]. Qed.
Lemma rel_trans a b c : rel a b -> rel b c -> rel a c.
Proof.
  intros (A1 & A2 & A3 & A4 & A5) (B1 & B2 & B3 & B4 & B5). split; [congruence|]. split; [congruence|]. split; [congruence|]. split.
  - intros H. destruct (B4 H) as (H1 & S1 & S2 & S3). destruct (A4 H1) as (H2 & S4 & S5 & S6). split; [exact H2|]. repeat split; congruence.
  - intros H. assert (Hb : ~ before b) by (intros Hb; apply H; exact (proj1 (A4 Hb))). rewrite (B5 Hb). exact (A5 H).
Qed.
Lemma Rel_refl ts : Rel ts ts. Proof. intros i u H. exists u. split; [exact H|apply rel_refl]. Qed.
Lemma Rel_trans a b c : Rel a b -> Rel b c -> Rel a c.
Proof. intros A B i u H. destruct (A i u H) as (v & Hv & R). destruct (B i v Hv) as (x & Hx & R'). exists x. split; [exact Hx|]. eapply rel_trans; eassumption. Qed.
Lemma Rel_put ts u u' : kfind t_id (t_id u) ts = Some u -> rel u u' -> Rel ts (put_task u' ts).
Proof.
  intros Hu HR i v Hv. change (put_task u' ts) with (kput t_id u' ts). assert (E : t_id u' = t_id u) by apply HR.
  rewrite (kfind_put t_id u' ts i u) by (rewrite E; exact Hu). rewrite E. destruct (N.eqb i (t_id u)) eqn:Ei.
  - apply N.eqb_eq in Ei. subst i. rewrite Hu in Hv. injection Hv as <-. eauto.
  - exists v. split; [exact Hv|apply rel_refl].
Qed.
Lemma Rel_app ts l : Rel ts (ts ++ l).
Proof. intros i u H. exists u. split; [|apply rel_refl]. rewrite kfind_app, H. reflexivity. Qed.
(** a task that is not a container, and that workers have been given; the number of times a task is, and the messages that do it *)
Definition plain (u : task) : bool := match t_parallel u, t_each u, t_subjob u with None, None, None => true | _, _, _ => false end.
Definition taken (u : task) : bool := match t_state u with TScheduled | TRunning | TCompleted => plain u | _ => false end.
Definition takes (i : N) (ts : list task) : nat := match kfind t_id i ts with Some u => b2n (taken u) | None => 0%nat end.
Definition gives (i : N) (m : msg) : bool := match m with MTask q t => (is_task_queue q && N.eqb (t_id t) i)%bool | _ => false end.
Definition given (i : N) (l : list msg) : nat := cnt (gives i) l.
Lemma taken_before u : before u -> taken u = false.
Proof. intros [H|H]; unfold taken; rewrite H; reflexivity. Qed.
Lemma takes_put i ts u u' : kfind t_id (t_id u) ts = Some u -> t_id u' = t_id u -> takes i (put_task u' ts) = if N.eqb i (t_id u) then b2n (taken u') else takes i ts.
Proof.
  intros Hu E. unfold takes. change (put_task u' ts) with (kput t_id u' ts). rewrite (kfind_put t_id u' ts i u) by (rewrite E; exact Hu). rewrite E.
  destruct (N.eqb i (t_id u)); reflexivity.
Qed.
Lemma takes_same i ts u u' : kfind t_id (t_id u) ts = Some u -> t_id u' = t_id u -> taken u' = taken u -> takes i (put_task u' ts) = takes i ts.
Proof.
  intros Hu E T. rewrite (takes_put i ts u u' Hu E), T. destruct (N.eqb i (t_id u)) eqn:Ei; [|reflexivity]. apply N.eqb_eq in Ei. subst i. unfold takes. rewrite Hu. reflexivity.
Qed.
Lemma takes_app i ts cs : Forall before cs -> takes i (ts ++ cs) = takes i ts.
Proof.
  intros H. unfold takes. rewrite kfind_app. destruct (kfind t_id i ts) as [u|]; [reflexivity|]. destruct (kfind t_id i cs) as [c|] eqn:E; [|reflexivity].
  apply kfind_some in E as [E _]. rewrite Forall_forall in H. rewrite (taken_before c (H c E)). reflexivity.
Qed.
Lemma given_none i l : Forall (fun m => gives i m = false) l -> given i l = 0%nat.
Proof. intros H. apply cnt_zero. rewrite Forall_forall in H. exact H. Qed.
Lemma given_one i q t : is_task_queue q = false -> given i [MTask q t] = 0%nat.
Proof. intros H. apply given_none. apply Forall_cons; [|apply Forall_nil]. cbn. rewrite H. reflexivity. Qed.
Lemma plain_fan u n c : vst u = APar n c -> taken u = false.
Proof.
  unfold vst, taken, plain. destruct (t_state u); try discriminate; try reflexivity.
  - destruct (t_parallel u), (t_each u), (t_subjob u); try discriminate; reflexivity.
  - destruct (t_parallel u); [reflexivity|]. destruct (t_each u); [discriminate|]. destruct (t_subjob u) as [s|]; [destruct (s_detached s)|]; discriminate.
Qed.
Lemma plain_each u n c k ix : vst u = AEa n c k ix -> taken u = false.
Proof.
  unfold vst, taken, plain. destruct (t_state u); try discriminate; try reflexivity.
  - destruct (t_parallel u), (t_each u), (t_subjob u); try discriminate; reflexivity.
  - destruct (t_parallel u); [reflexivity|]. destruct (t_each u); [reflexivity|]. destruct (t_subjob u) as [s|]; [destruct (s_detached s)|]; discriminate.
Qed.
Lemma JRel_refl ts : JRel ts ts. Proof. intros i u H. exists u. split; [exact H|]. intros _. reflexivity. Qed.
Lemma JRel_trans a b c : JRel a b -> JRel b c -> JRel a c.
Proof. intros A B i u H. destruct (A i u H) as (v & Hv & R). destruct (B i v Hv) as (x & Hx & R'). exists x. split; [exact Hx|]. intros E. pose proof (R' E) as E'. subst x. now apply R. Qed.
Lemma JRel_put js u u' : kfind j_id (j_id u) js = Some u -> j_id u' = j_id u -> jrel u u' -> JRel js (put_job u' js).
Proof.
  intros Hu E HR i v Hv. change (put_job u' js) with (kput j_id u' js).
  rewrite (kfind_put j_id u' js i u) by (rewrite E; exact Hu). rewrite E. destruct (N.eqb i (j_id u)) eqn:Ei.
  - apply N.eqb_eq in Ei. subst i. rewrite Hu in Hv. injection Hv as <-. eauto.
  - exists v. split; [exact Hv|]. intros _. reflexivity.
Qed.
Lemma JRel_app ts l : JRel ts (ts ++ l).
Proof. intros i u H. exists u. split; [|intros _; reflexivity]. rewrite kfind_app, H. reflexivity. Qed.

Section Sim.
Variables (O : oracle) (i0 : id) (told : list task) (jold : list job) (nodes0 : list node).
Hypothesis Hi0 : (0 < i0)%N.
Hypothesis Htold : forall t, In t told -> (t_id t < i0)%N /\ (t_parent t < i0)%N.
Hypothesis Hjold : forall j, In j jold -> (j_id j < i0)%N.
Hypothesis Hnodes : forall n, In n nodes0 -> String.prefix QUEUE_EXCLUSIVE_PREFIX (n_queue n) = true.

Definition rowok (u : task) : Prop := (i0 <= t_id u)%N /\ (before u -> clean u /\ well_formed O u).
Definition jobok (j : job) : Prop :=
  (i0 <= j_id j)%N /\ j_tasks j <> [] /\ Forall pristine (j_tasks j) /\ Forall (well_formed O) (j_tasks j) /\
  j_taskcount j = Z.of_nat (length (j_tasks j)) /\ output_evaluates O (j_output j) /\ worker_queue (d_queue (defaults_of j)).
Definition onrow (ts : list task) (t u : task) : Prop := kfind t_id (t_id t) ts = Some u /\ t_job t = t_job u /\ t_parent t = t_parent u.
Definition mtaskok (q : string) (t u : task) : Prop :=
  if String.eqb q QUEUE_PENDING then (before u -> same_def t u) /\ clean t /\ well_formed O t
  else if String.eqb q QUEUE_COMPLETED then (t_state t = TCompleted \/ t_state t = TSkipped) /\ ~ before u /\ (t_state u = TSkipped <-> t_state t = TSkipped)
  else if is_task_queue q then True
  else if String.eqb q QUEUE_STARTED then exists n, find (fun n => N.eqb (n_id n) (t_node t)) nodes0 = Some n
  else String.prefix QUEUE_EXCLUSIVE_PREFIX q = true.
Definition msgok (ts : list task) (js : list job) (m : msg) : Prop :=
  match m with
  | MTask q t => exists u, onrow ts t u /\ mtaskok q t u
  | MProgress t => exists u, onrow ts t u
  | MJob j => j_state j = JPending /\ exists r, kfind j_id (j_id j) js = Some r /\ (j_state r = JPending -> r = j)
  | MEvent _ _ => True
  | MHeartbeat _ => False
  end.
Record CI (w : world) (U : list msg) (ts : list task) (js : list job) : Prop := {
  ci_t : w_tasks w = told ++ ts;
  ci_j : w_jobs w = jold ++ js;
  ci_n : w_nodes w = nodes0;
  ci_f : w_faults w = [];
  ci_x : (i0 <= w_fresh w)%N;
  ci_rows : Forall rowok ts;
  ci_jobs : Forall jobok js;
  ci_msgs : Forall (msgok ts js) U;
  ci_ai : AI (alpha w ts js U) }.

Lemma msgok_stable ts js ts' js' m : Rel ts ts' -> JRel js js' -> msgok ts js m -> msgok ts' js' m.
Proof.
  intros HR HJ. destruct m as [q t|j|tp j|t|n]; cbn; auto.
  - intros (u & (A & B & C) & D). destruct (HR _ _ A) as (u' & A' & R1 & R2 & R3 & R4 & R5). exists u'. split; [repeat split; [exact A'|congruence|congruence]|].
    revert D. unfold mtaskok. destruct (String.eqb q QUEUE_PENDING).
    2:{ destruct (String.eqb q QUEUE_COMPLETED); [|auto]. intros (D1 & D2 & D3). split; [exact D1|]. split; [intros Hb; apply D2; exact (proj1 (R4 Hb))|]. rewrite (R5 D2). exact D3. }
    intros (D & E). split; [|exact E]. intros Hb. destruct (R4 Hb) as (Hb' & S1 & S2 & S3).
    destruct (D Hb') as (D1 & D2 & D3). repeat split; congruence.
  - intros (A & r & B & C). split; [exact A|]. destruct (HJ _ _ B) as (r' & B' & R). exists r'. split; [exact B'|]. intros E. pose proof (R E) as E'. subst r'. auto.
  - intros (u & (A & B & C)). destruct (HR _ _ A) as (u' & A' & R1 & R2 & R3 & _). exists u'. repeat split; [exact A'|congruence|congruence].
Qed.
Lemma msgs_stable ts js ts' js' U : Rel ts ts' -> JRel js js' -> Forall (msgok ts js) U -> Forall (msgok ts' js') U.
Proof. intros HR HJ. apply Forall_impl. intros m. apply msgok_stable; assumption. Qed.

Lemma find_task_new w ts i : w_tasks w = told ++ ts -> (i0 <= i)%N -> find_task i w = kfind t_id i ts.
Proof.
  intros E Hi. change (find_task i w) with (kfind t_id i (w_tasks w)). rewrite E, kfind_app. destruct (kfind t_id i told) as [x|] eqn:F; [|reflexivity].
  apply kfind_some in F as [F1 F2]. apply Htold in F1. lia.
Qed.
Lemma find_job_new w js i : w_jobs w = jold ++ js -> (i0 <= i)%N -> find_job i w = kfind j_id i js.
Proof.
  intros E Hi. change (find_job i w) with (kfind j_id i (w_jobs w)). rewrite E, kfind_app. destruct (kfind j_id i jold) as [x|] eqn:F; [|reflexivity].
  apply kfind_some in F as [F1 F2]. apply Hjold in F1. lia.
Qed.
Lemma put_task_new u ts : (i0 <= t_id u)%N -> put_task u (told ++ ts) = told ++ put_task u ts.
Proof.
  intros Hi. unfold put_task. rewrite map_app. f_equal. rewrite <- (map_id told) at 2. apply map_ext_in. intros x Hx. apply Htold in Hx.
  destruct (N.eqb (t_id x) (t_id u)) eqn:E; [apply N.eqb_eq in E; lia|reflexivity].
Qed.
Lemma put_job_new u js : (i0 <= j_id u)%N -> put_job u (jold ++ js) = jold ++ put_job u js.
Proof.
  intros Hi. unfold put_job. rewrite map_app. f_equal. rewrite <- (map_id jold) at 2. apply map_ext_in. intros x Hx. apply Hjold in Hx.
  destruct (N.eqb (j_id x) (j_id u)) eqn:E; [apply N.eqb_eq in E; lia|reflexivity].
Qed.
Lemma rows_put ts u : Forall rowok ts -> rowok u -> Forall rowok (put_task u ts).
Proof. intros H Hu. unfold put_task. apply Forall_map. eapply Forall_impl; [|exact H]. intros x Hx. cbn. destruct (N.eqb (t_id x) (t_id u)); assumption. Qed.
Lemma jobs_put js u : Forall jobok js -> jobok u -> Forall jobok (put_job u js).
Proof. intros H Hu. unfold put_job. apply Forall_map. eapply Forall_impl; [|exact H]. intros x Hx. cbn. destruct (N.eqb (j_id x) (j_id u)); assumption. Qed.

Section Basic.
Variables (w : world) (U : list msg) (ts : list task) (js : list job).
Hypothesis HC : CI w U ts js.
Lemma c_nodup : NoDup (map t_id ts). Proof. pose proof (ai_rn _ (ci_ai _ _ _ _ HC)) as H. cbn in H. now rewrite map_rid in H. Qed.
Lemma c_jnodup : NoDup (map j_id js). Proof. pose proof (ai_qn _ (ci_ai _ _ _ _ HC)) as H. cbn in H. now rewrite map_qid in H. Qed.
Lemma c_row i u : kfind t_id i ts = Some u -> (i0 <= i)%N /\ (i < w_fresh w)%N /\ t_id u = i /\ find_task i w = Some u /\ rowok u /\ In u ts.
Proof.
  intros H. pose proof H as H'. apply kfind_some in H' as [Hin Hid]. pose proof (ci_rows _ _ _ _ HC) as Hr. rewrite Forall_forall in Hr. pose proof (Hr u Hin) as (Hi & Hb).
  rewrite Hid in Hi. split; [exact Hi|]. split; [|split; [exact Hid|split; [rewrite (find_task_new w ts i (ci_t _ _ _ _ HC) Hi); exact H|split; [apply (Hr u Hin)|exact Hin]]]].
  pose proof (ai_rf _ (ci_ai _ _ _ _ HC) (view u) (in_map view _ _ Hin)) as X. cbn in X. rewrite Hid in X. lia.
Qed.
Lemma c_job i j : kfind j_id i js = Some j -> (i0 <= i)%N /\ (i < w_fresh w)%N /\ j_id j = i /\ find_job i w = Some j /\ jobok j /\ In j js.
Proof.
  intros H. pose proof H as H'. apply kfind_some in H' as [Hin Hid]. pose proof (ci_jobs _ _ _ _ HC) as Hr. rewrite Forall_forall in Hr. pose proof (Hr j Hin) as (Hi & Hb).
  rewrite Hid in Hi. split; [exact Hi|]. split; [|split; [exact Hid|split; [rewrite (find_job_new w js i (ci_j _ _ _ _ HC) Hi); exact H|split; [apply (Hr j Hin)|exact Hin]]]].
  pose proof (ai_qf _ (ci_ai _ _ _ _ HC) (jview j) (in_map jview _ _ Hin)) as X. cbn in X. rewrite Hid in X. lia.
Qed.
Lemma c_own i u : kfind t_id i ts = Some u -> exists j, kfind j_id (t_job u) js = Some j /\ j_state j <> JPending.
Proof.
  intros H. apply kfind_some in H as [Hin _]. destruct (ai_own _ (ci_ai _ _ _ _ HC) (view u) (in_map view _ _ Hin)) as (q & Q1 & Q2 & _). cbn in Q1.
  apply qfind_view in Q1 as (j & J1 & ->). exists j. split; [exact J1|]. intros E. apply Q2. cbn. now rewrite E.
Qed.
Lemma c_rfind i u : kfind t_id i ts = Some u -> rfind i (map view ts) = Some (view u).
Proof. intros H. now rewrite rfind_map, H. Qed.
Lemma c_qfind i u : kfind j_id i js = Some u -> qfind i (map jview js) = Some (jview u).
Proof. intros H. now rewrite qfind_map, H. Qed.
Lemma c_below : ids_below w.
Proof.
  intros t Hin. rewrite (ci_t _ _ _ _ HC) in Hin. apply in_app_iff in Hin as [Hin|Hin]; [apply Htold in Hin; pose proof (ci_x _ _ _ _ HC); lia|].
  pose proof (ai_rf _ (ci_ai _ _ _ _ HC) (view t) (in_map view _ _ Hin)) as X. cbn in X. lia.
Qed.
Lemma c_newjob : find_job (w_fresh w) w = None.
Proof.
  destruct (find_job (w_fresh w) w) as [x|] eqn:E; [|reflexivity]. pose proof (find_job_id _ _ _ E) as Hi. apply find_job_in in E. rewrite (ci_j _ _ _ _ HC) in E.
  pose proof (ci_x _ _ _ _ HC). apply in_app_iff in E as [E|E]; [apply Hjold in E; lia|].
  pose proof (ai_qf _ (ci_ai _ _ _ _ HC) (jview x) (in_map jview _ _ E)) as X. cbn in X. lia.
Qed.
End Basic.

(** from here, message [m] handled in [w] leads to [w'] *)
Definition goes (m : msg) (R : list msg) (w : world) (ts : list task) (js : list job) (w' : world) : Prop :=
  exists ts' js' new, w_hist w' = w_hist w ++ new /\ CI w' (new ++ R) ts' js' /\ asteps (alpha w ts js (m :: R)) (alpha w' ts' js' (new ++ R)) /\
    forall i, (given i new + takes i ts = takes i ts')%nat.
(** one abstract step *)
Lemma goes_one m R w ts js w' ts' js' new : CI w (m :: R) ts js ->
  w_hist w' = w_hist w ++ new -> w_tasks w' = told ++ ts' -> w_jobs w' = jold ++ js' -> w_nodes w' = nodes0 -> w_faults w' = [] -> (i0 <= w_fresh w')%N ->
  Forall rowok ts' -> Forall jobok js' -> Rel ts ts' -> JRel js js' -> Forall (msgok ts' js') new ->
  astep (alpha w ts js (m :: R)) (alpha w' ts' js' (new ++ R)) -> (forall i, (given i new + takes i ts = takes i ts')%nat) -> goes m R w ts js w'.
Proof.
  intros HC H1 H2 H3 H4 H5 H6 H7 H8 H9 H10 H11 St Gv. exists ts', js', new. split; [exact H1|].
  assert (A : asteps (alpha w ts js (m :: R)) (alpha w' ts' js' (new ++ R))) by (eapply as_one; [apply aeq_refl|exact St|apply aeq_refl]).
  split; [|split; [exact A|exact Gv]]. split; try assumption.
  - apply Forall_app. split; [exact H11|]. pose proof (ci_msgs _ _ _ _ HC) as HM. inversion HM; subst. eapply msgs_stable; eassumption.
  - exact (asteps_AI _ _ A (ci_ai _ _ _ _ HC)).
Qed.

(** ** The pending handler *)
Lemma vst_pending u h : vst u = APe h -> t_state u = TPending /\ h = weight u.
Proof.
  unfold vst. destruct (t_state u); try discriminate.
  - intros E. injection E as <-. auto.
  - destruct (t_parallel u), (t_each u), (t_subjob u); discriminate.
  - destruct (t_parallel u); [discriminate|]. destruct (t_each u); [discriminate|]. destruct (t_subjob u) as [s|]; [destruct (s_detached s)|]; discriminate.
  - destruct (t_completed u); discriminate.
Qed.
Lemma pend_facts w R ts js t : CI w (MTask QUEUE_PENDING t :: R) ts js ->
  exists u j, kfind t_id (t_id t) ts = Some u /\ t_state u = TPending /\ weight t = weight u /\ same_def t u /\ clean t /\ well_formed O t /\ clean u /\
    t_job t = t_job u /\ t_parent t = t_parent u /\ kfind j_id (t_job t) js = Some j /\ j_state j <> JPending.
Proof.
  intros HC. pose proof (ci_msgs _ _ _ _ HC) as HM. inversion HM as [|? ? M _]; subst. destruct M as (u & (A & B & C) & (D & E & F)).
  destruct (ai_kp _ (ci_ai _ _ _ _ HC) (t_id t) (weight t)) as (r & R1 & R2); [left; reflexivity|]. cbn in R1. apply rfind_view in R1 as (u1 & U1 & ->). rewrite A in U1. injection U1 as <-.
  cbn in R2. apply vst_pending in R2 as (S1 & S2). destruct (c_own _ _ _ _ HC _ _ A) as (j & J1 & J2). exists u, j.
  destruct (c_row _ _ _ _ HC _ _ A) as (_ & _ & _ & _ & (_ & X) & _). destruct (X (or_intror S1)) as (X1 & _). rewrite B.
  split; [exact A|]. split; [exact S1|]. split; [exact S2|]. split; [apply D; right; exact S1|]. split; [exact E|]. split; [exact F|]. split; [exact X1|]. split; [reflexivity|]. split; [exact C|]. split; [exact J1|exact J2].
Qed.
Lemma rel_running u u' : t_id u' = t_id u -> t_job u' = t_job u -> t_parent u' = t_parent u -> t_state u' <> TCreated -> t_state u' <> TPending ->
  (~ before u -> (t_state u' = TSkipped <-> t_state u = TSkipped)) -> rel u u'.
Proof. intros A B C D E F. split; [exact A|]. split; [exact B|]. split; [exact C|]. split; [intros [H|H]; contradiction|exact F]. Qed.
Lemma rowok_running u : (i0 <= t_id u)%N -> t_state u <> TCreated -> t_state u <> TPending -> rowok u.
Proof. intros A D E. split; [exact A|]. intros [H|H]; contradiction. Qed.
Lemma view_set u u' s : t_id u' = t_id u -> t_job u' = t_job u -> t_parent u' = t_parent u -> t_position u' = t_position u -> vst u' = s -> view u' = setst (view u) s.
Proof. intros A B C D <-. unfold view, setst. cbn. now rewrite A, B, C, D. Qed.
(** the row of [t] only *)
Lemma put_view ts u u' s : t_id u' = t_id u -> t_job u' = t_job u -> t_parent u' = t_parent u -> t_position u' = t_position u -> vst u' = s ->
  map view (put_task u' ts) = rput (setst (view u) s) (map view ts).
Proof. intros A B C D E. rewrite map_put_view. now rewrite (view_set u u' s A B C D E). Qed.

Lemma pend_skip w R ts js t : CI w (MTask QUEUE_PENDING t :: R) ts js -> String.eqb (trim_space (t_if t)) "false" = true ->
  exists w', run (pending_handler O t) w = (w', Ok tt) /\ goes (MTask QUEUE_PENDING t) R w ts js w'.
Proof.
  intros HC Hif. destruct (pend_facts _ _ _ _ _ HC) as (u & j & A & S & W & D & Ct & Wt & Cu & Ej & Ep & J1 & J2).
  destruct (c_row _ _ _ _ HC _ _ A) as (Hi & Hlt & Hid & Hu & Hok & Hin). pose proof (ci_f _ _ _ _ HC) as Hf.
  set (u' := u <| t_state := TSkipped |> <| t_scheduled := Some (w_clock w) |> <| t_started := Some (w_clock w) |>).
  set (t' := t <| t_state := TSkipped |> <| t_scheduled := Some (w_clock w) |> <| t_started := Some (w_clock w) |> <| t_completed := Some (w_clock w) |>).
  exists (w <| w_tasks := put_task u' (w_tasks w) |> <| w_hist := w_hist w ++ [MTask QUEUE_COMPLETED t'] |>). split.
  { unfold pending_handler. rewrite Hif. unfold skip_task. rewrite run_bind, run_now, run_with_msg, run_bind.
    erewrite run_update_task; [|exact Hf|exact Hu|reflexivity]. unfold publish_task. rewrite run_publish by exact Hf. reflexivity. }
  apply (goes_one _ _ w ts js _ (put_task u' ts) js [MTask QUEUE_COMPLETED t'] HC); try reflexivity.
  - cbn [w_tasks set]. cbn. rewrite (ci_t _ _ _ _ HC). apply put_task_new. change (t_id u') with (t_id u). lia.
  - exact (ci_j _ _ _ _ HC).
  - exact (ci_n _ _ _ _ HC).
  - exact Hf.
  - exact (ci_x _ _ _ _ HC).
  - apply rows_put; [exact (ci_rows _ _ _ _ HC)|]. apply rowok_running; [change (t_id u') with (t_id u); lia|discriminate|discriminate].
  - exact (ci_jobs _ _ _ _ HC).
  - apply (Rel_put ts u u'); [now rewrite Hid|]. apply rel_running; try reflexivity; try discriminate. intros Nb. contradiction Nb. right. exact S.
  - apply JRel_refl.
  - apply Forall_cons; [|apply Forall_nil]. exists u'. split; [|split; [right; reflexivity|split; [intros [B|B]; discriminate B|split; reflexivity]]]. split; [|split; assumption].
    change (put_task u' ts) with (kput t_id u' ts). change (t_id t') with (t_id t). rewrite (kfind_put t_id u' ts (t_id t) u) by (change (t_id u') with (t_id u); now rewrite Hid).
    change (t_id u') with (t_id u). now rewrite Hid, N.eqb_refl.
  - unfold alpha. cbn [w_fresh set]. rewrite (put_view ts u u' ASk); try reflexivity.
    + apply (s_simple (map view ts) (map jview js) (map tok R) (w_fresh w) (t_id t) (weight t) (view u) ASk (KC (t_id t))).
      * exact (c_rfind ts _ _ A).
      * rewrite weight_eq. lia.
      * right. split; reflexivity.
    + unfold vst. change (t_state u') with TSkipped. change (t_completed u') with (t_completed u). cbn iota. now rewrite (proj1 Cu).
  - intros i. rewrite (given_one i QUEUE_COMPLETED t' eq_refl). symmetry. apply (takes_same i ts u u'); [now rewrite Hid|reflexivity|]. rewrite (taken_before u (or_intror S)). reflexivity.
Qed.

Lemma goes_pend w R ts js t u u' s cs jn new w' : CI w (MTask QUEUE_PENDING t :: R) ts js -> kfind t_id (t_id t) ts = Some u ->
  t_id u' = t_id u -> t_job u' = t_job u -> t_parent u' = t_parent u -> t_position u' = t_position u -> t_state u' <> TCreated -> t_state u' <> TPending -> vst u' = s ->
  w_tasks w' = put_task u' (w_tasks w) ++ cs -> w_jobs w' = w_jobs w ++ jn -> w_hist w' = w_hist w ++ new -> w_nodes w' = w_nodes w -> w_faults w' = [] -> (w_fresh w <= w_fresh w')%N ->
  Forall rowok cs -> Forall jobok jn -> Forall (msgok (put_task u' ts ++ cs) (js ++ jn)) new ->
  astep (mkAbs (map view ts) (map jview js) (KP (t_id t) (weight t) :: map tok R) (w_fresh w))
        (mkAbs (rput (setst (view u) s) (map view ts) ++ map view cs) (map jview js ++ map jview jn) (map tok new ++ map tok R) (w_fresh w')) ->
  before u -> Forall before cs -> (forall i, given i new = if N.eqb i (t_id t) then b2n (taken u') else 0%nat) ->
  goes (MTask QUEUE_PENDING t) R w ts js w'.
Proof.
  intros HC A E1 E2 E3 E4 N1 N2 V T J Hh Nd F X Rc Jc Mn St Bu Bc Gv. destruct (c_row _ _ _ _ HC _ _ A) as (Hi & Hlt & Hid & Hu & Hok & Hin).
  apply (goes_one _ _ w ts js w' (put_task u' ts ++ cs) (js ++ jn) new HC); try assumption.
  - rewrite T, (ci_t _ _ _ _ HC), put_task_new by lia. now rewrite app_assoc.
  - rewrite J, (ci_j _ _ _ _ HC). now rewrite app_assoc.
  - now rewrite Nd, (ci_n _ _ _ _ HC).
  - pose proof (ci_x _ _ _ _ HC). lia.
  - apply Forall_app. split; [|exact Rc]. apply rows_put; [exact (ci_rows _ _ _ _ HC)|]. apply rowok_running; [lia|assumption|assumption].
  - apply Forall_app. split; [exact (ci_jobs _ _ _ _ HC)|exact Jc].
  - eapply Rel_trans; [|apply Rel_app]. apply (Rel_put ts u u'); [now rewrite Hid|]. apply rel_running; try assumption. intros Nb. contradiction.
  - apply JRel_app.
  - unfold alpha. rewrite !map_app, (put_view ts u u' s E1 E2 E3 E4 V). exact St.
  - intros i. rewrite (takes_app i _ cs Bc), (takes_put i ts u u' (eq_trans (f_equal (fun x => kfind t_id x ts) Hid) A) E1), Gv. rewrite Hid. destruct (N.eqb i (t_id t)) eqn:Ei; [|reflexivity].
    apply N.eqb_eq in Ei. subst i. unfold takes. rewrite A, (taken_before u Bu). apply Nat.add_0_r.
Qed.
Lemma find_put_self ts t u u' l : kfind t_id (t_id t) ts = Some u -> t_id u' = t_id u -> kfind t_id (t_id t) (put_task u' ts ++ l) = Some u'.
Proof.
  intros A E. pose proof (proj2 (kfind_some t_id _ _ _ A)) as Hid. change (put_task u' ts) with (kput t_id u' ts).
  rewrite kfind_app, (kfind_put t_id u' ts (t_id t) u) by (rewrite E, Hid; exact A). now rewrite E, Hid, N.eqb_refl.
Qed.
Lemma task_queue_other q : is_task_queue q = true -> String.eqb q QUEUE_PENDING = false /\ String.eqb q QUEUE_COMPLETED = false.
Proof.
  intros H. split; (match goal with |- ?x = _ => destruct x eqn:E end; [|reflexivity]); apply String.eqb_eq in E; subst q; vm_compute in H; discriminate.
Qed.
Lemma served_queue q1 q2 : worker_queue q1 -> worker_queue q2 -> is_task_queue (first_set [q1; q2; "default"]) = true.
Proof.
  intros [->|H1] H2.
  - destruct H2 as [->|H2]; [reflexivity|]. destruct q2; [reflexivity|exact H2].
  - destruct q1; [destruct H2 as [->|H2]; [reflexivity|]; destruct q2; [reflexivity|exact H2]|exact H1].
Qed.
Lemma pend_regular w R ts js t : CI w (MTask QUEUE_PENDING t :: R) ts js -> String.eqb (trim_space (t_if t)) "false" = false -> regular t ->
  exists w', run (pending_handler O t) w = (w', Ok tt) /\ goes (MTask QUEUE_PENDING t) R w ts js w'.
Proof.
  intros HC Hif (Hp & He & Hs). destruct (pend_facts _ _ _ _ _ HC) as (u & j & A & S & W & (D1 & D2 & D3) & Ct & Wt & Cu & Ej & Ep & J1 & J2).
  destruct (c_row _ _ _ _ HC _ _ A) as (Hi & Hlt & Hid & Hu & Hok & Hin). destruct (c_job _ _ _ _ HC _ _ J1) as (_ & _ & _ & Hj & Hjok & _). pose proof (ci_f _ _ _ _ HC) as Hf.
  unfold pending_handler. rewrite Hif. unfold schedule_task. rewrite Hp, He, Hs. unfold schedule_regular.
  rewrite run_bind, run_now, run_bind, run_get_job, Hj by exact Hf. rewrite run_with_msg, run_bind.
  pose proof (resolved_state j t _ TScheduled (Some (w_clock w)) (apply_defaults_resolved j t)) as HR.
  set (t' := (apply_defaults j t) <| t_state := TScheduled |> <| t_scheduled := Some (w_clock w) |>) in *.
  assert (Hst : t_state t' = TScheduled) by reflexivity. clearbody t'.
  destruct HR as (HQ & _ & _ & _ & _ & _ & _ & HU).
  assert (T1 : t_id t' = t_id t) by (apply (f_equal t_id) in HU; exact HU). assert (T2 : t_job t' = t_job t) by (apply (f_equal t_job) in HU; exact HU).
  assert (T3 : t_parent t' = t_parent t) by (apply (f_equal t_parent) in HU; exact HU).
  erewrite run_update_task; [|exact Hf|exact Hu|reflexivity]. unfold publish_task. rewrite run_publish by exact Hf.
  match goal with |- context [put_task ?x _] => set (u' := x) end.
  assert (Q : is_task_queue (t_queue t') = true).
  { rewrite HQ. apply served_queue; [|apply Hjok]. apply wf_eq in Wt as (_ & _ & _ & _ & [Q _] & _). exact Q. }
  destruct (task_queue_other _ Q) as (Q1 & Q2).
  eexists. split; [reflexivity|].
  apply (goes_pend w R ts js t u u' AWo [] [] [MTask (t_queue t') t'] _ HC A); try reflexivity.
  - change (t_state u') with (t_state t'). rewrite Hst. discriminate.
  - change (t_state u') with (t_state t'). rewrite Hst. discriminate.
  - unfold vst. change (t_state u') with (t_state t'). rewrite Hst. change (t_parallel u') with (t_parallel u). change (t_each u') with (t_each u). change (t_subjob u') with (t_subjob u).
    rewrite <- D1, <- D2, <- D3, Hp, He, Hs. reflexivity.
  - now rewrite app_nil_r.
  - now rewrite app_nil_r.
  - exact Hf.
  - apply Forall_nil.
  - apply Forall_nil.
  - apply Forall_cons; [|apply Forall_nil]. exists u'. split; [split; [rewrite T1; now apply (find_put_self ts t u u')|]|].
    + rewrite T2, T3. split; [exact Ej|exact Ep].
    + unfold mtaskok. rewrite Q1, Q2, Q. exact I.
  - rewrite !app_nil_r. cbn [map]. assert (E : tok (MTask (t_queue t') t') = KW (t_id t)) by (unfold tok; now rewrite Q1, Q2, Q, T1). rewrite E.
    apply (s_simple (map view ts) (map jview js) (map tok R) (w_fresh w) (t_id t) (weight t) (view u) AWo (KW (t_id t))).
    + exact (c_rfind ts _ _ A).
    + rewrite weight_eq. lia.
    + left. split; reflexivity.
  - right. exact S.
  - apply Forall_nil.
  - intros i. assert (Tk : taken u' = true).
    { unfold taken. change (t_state u') with (t_state t'). rewrite Hst. unfold plain. change (t_parallel u') with (t_parallel u). change (t_each u') with (t_each u). change (t_subjob u') with (t_subjob u).
      rewrite <- D1, <- D2, <- D3, Hp, He, Hs. reflexivity. }
    rewrite Tk. unfold given. rewrite cnt_cons. unfold gives. rewrite Q, T1, N.eqb_sym. destruct (N.eqb i (t_id t)); reflexivity.
Qed.
(** tasks with children *)
Definition kidok (t c : task) : Prop :=
  t_job c = t_job t /\ t_parent c = t_id t /\ before c /\ clean c /\ well_formed O c /\ (weight c + 3 <= weight t)%nat.
Lemma wf_identity i jb pa s pos cr d : well_formed O (identity i jb pa s pos cr d) <-> well_formed O d.
Proof. destruct d; reflexivity. Qed.
Lemma weight_identity i jb pa s pos cr d : weight (identity i jb pa s pos cr d) = weight d.
Proof. destruct d; reflexivity. Qed.
Lemma wf_db t : well_formed O (db_task t) <-> well_formed O t.
Proof. destruct t; reflexivity. Qed.
Lemma weight_db t : weight (db_task t) = weight t.
Proof. destruct t; reflexivity. Qed.
Definition pendb (c : task) : bool := tstate_eqb (t_state c) TPending.
Lemma tok_kids cs : Forall before cs -> map tok (map (MTask QUEUE_PENDING) (filter pendb cs)) = kidtoks (map view (map db_task cs)).
Proof.
  induction 1 as [|c cs B _ IH]; [reflexivity|]. cbn [filter map kidtoks flat_map]. unfold pendb at 1. unfold r_st at 1, view at 1, vst. change (t_state (db_task c)) with (t_state c).
  destruct B as [E|E]; rewrite E; cbn [tstate_eqb map app]; [exact IH|].
  unfold kidtoks in IH. rewrite IH, weight_db. reflexivity.
Qed.
Lemma goes_fan w R ts js t u u' s cs ps : CI w (MTask QUEUE_PENDING t :: R) ts js -> kfind t_id (t_id t) ts = Some u ->
  t_id u' = t_id u -> t_job u' = t_job u -> t_parent u' = t_parent u -> t_position u' = t_position u -> t_state u' <> TCreated -> t_state u' <> TPending -> vst u' = s ->
  cs <> [] -> Forall (kidok t) cs -> map t_id cs = nseq (w_fresh w) (length cs) -> ps = filter pendb cs -> weight t = weight u ->
  (s = APar (Z.of_nat (length cs)) 0 /\ Forall (fun c => t_state c = TPending) cs \/
   exists k, 0 <= k /\ s = AEa (Z.of_nat (length cs)) 0 k k /\
     Z.of_nat (cnt (fun c => tstate_eqb (t_state c) TCreated) cs) = if k =? 0 then 0 else Z.max 0 (Z.of_nat (length cs) - k)) ->
  before u ->
  goes (MTask QUEUE_PENDING t) R w ts js (spawned (w <| w_tasks := put_task u' (w_tasks w) |>) cs ps).
Proof.
  intros HC A E1 E2 E3 E4 N1 N2 V Ne K Ids -> W HS Bu. destruct (c_row _ _ _ _ HC _ _ A) as (Hi & Hlt & Hid & Hu & Hok & Hin).
  pose proof (ci_msgs _ _ _ _ HC) as HM. inversion HM as [|? ? M _]; subst x l. destruct M as (u0 & (A0 & B0 & C0) & _). rewrite A in A0. injection A0 as <-.
  rewrite Forall_forall in K.
  apply (goes_pend w R ts js t u u' s (map db_task cs) [] (map (MTask QUEUE_PENDING) (filter pendb cs)) _ HC A); try reflexivity; try assumption.
  - now rewrite app_nil_r.
  - exact (ci_f _ _ _ _ HC).
  - unfold spawned. cbn [w_fresh set]. cbn. lia.
  - apply Forall_map, Forall_forall. intros c Hc. destruct (K c Hc) as (K1 & K2 & K3 & K4 & K5 & K6). split.
    + change (t_id (db_task c)) with (t_id c). apply (in_map t_id) in Hc. rewrite Ids in Hc. apply nseq_in in Hc. pose proof (ci_x _ _ _ _ HC). lia.
    + intros _. split; [exact K4|apply wf_db; exact K5].
  - apply Forall_nil.
  - apply Forall_map, Forall_forall. intros c Hc. apply filter_In in Hc as [Hc _]. destruct (K c Hc) as (K1 & K2 & K3 & K4 & K5 & K6). exists (db_task c). split.
    + split; [|split; reflexivity].
      assert (F : kfind t_id (t_id c) (map db_task cs) = Some (db_task c)).
      { apply (kfind_in t_id (map db_task cs) (db_task c)); [|now apply in_map]. rewrite map_map. change (map (fun x => t_id (db_task x)) cs) with (map t_id cs). rewrite Ids. apply nseq_nodup. }
      rewrite kfind_app. destruct (kfind t_id (t_id c) (put_task u' ts)) as [x|] eqn:Fx; [|exact F]. exfalso.
      apply kfind_some in Fx as [Fx Fi]. apply (in_map t_id) in Fx. change (put_task u' ts) with (kput t_id u' ts) in Fx. rewrite kput_keys in Fx.
      apply in_map_iff in Fx as (y & Ey & Hy). pose proof (ai_rf _ (ci_ai _ _ _ _ HC) (view y) (in_map view _ _ Hy)) as Z. cbn in Z.
      apply (in_map t_id) in Hc. rewrite Ids in Hc. apply nseq_in in Hc. lia.
    + split; [intros _; repeat split|]. split; assumption.
  - rewrite tok_kids by (apply Forall_forall; intros c Hc; apply (K c Hc)). cbn [map]. rewrite app_nil_r.
    unfold spawned. cbn [w_fresh set]. cbn -[N.add N.of_nat kput kidtoks].
    replace (length cs) with (length (map view (map db_task cs))) by now rewrite !map_length.
    apply (s_fan (map view ts) (map jview js) (map tok R) (w_fresh w) (t_id t) (weight t) (view u) s (map view (map db_task cs))).
    + exact (c_rfind ts _ _ A).
    + destruct cs; [contradiction|discriminate].
    + apply Forall_map, Forall_map, Forall_forall. intros c Hc. destruct (K c Hc) as (K1 & K2 & K3 & K4 & K5 & K6). split; [cbn; congruence|]. split; [exact K2|].
      exists (weight c). split; [exact K6|]. unfold view, vst. cbn. destruct K3 as [S|S]; rewrite S; [right|left]; f_equal; apply weight_db.
    + rewrite !map_map, !map_length. exact Ids.
    + rewrite !map_length. destruct HS as [[-> HS]|(k & Hk & -> & HS)].
      * left. split; [reflexivity|]. apply Forall_map, Forall_map. eapply Forall_impl; [|exact HS]. intros c S. unfold view, vst. cbn. now rewrite S.
      * right. exists k. split; [exact Hk|]. split; [reflexivity|]. rewrite <- HS. f_equal. clear -K. assert (K' : forall c, In c cs -> before c) by (intros c Hc; apply (K c Hc)). clear K.
        induction cs as [|c cs IH]; [reflexivity|]. cbn [map]. rewrite !cnt_cons, IH by (intros; apply K'; now right). f_equal.
        unfold view, vst. cbn. destruct (K' c (or_introl eq_refl)) as [S|S]; rewrite S; reflexivity.
  - apply Forall_map, Forall_forall. intros c Hc. exact (proj1 (proj2 (proj2 (K c Hc)))).
  - intros i. assert (Tk : taken u' = false).
    { destruct HS as [[HS _]|(k & _ & HS & _)]; rewrite HS in V; [exact (plain_fan _ _ _ V)|exact (plain_each _ _ _ _ _ V)]. }
    rewrite Tk, given_none; [destruct (N.eqb i (t_id t)); reflexivity|]. apply Forall_map, Forall_forall. reflexivity.
Qed.
Lemma pkids_ids t j clk i l cs : pkids O t j clk i l cs -> map t_id cs = nseq i (length cs).
Proof. induction 1 as [|i x l c cs (d & _ & ->) H IH]; [reflexivity|]. cbn [map length nseq]. rewrite IH. reflexivity. Qed.
Lemma below_put w R ts js u u' : CI w R ts js -> kfind t_id (t_id u') ts = Some u -> ids_below (w <| w_tasks := put_task u' (w_tasks w) |>).
Proof.
  intros HC A x Hx. change (w_fresh (w <| w_tasks := put_task u' (w_tasks w) |>)) with (w_fresh w).
  apply (in_map t_id) in Hx. cbn in Hx. rewrite map_id_put_task in Hx. apply in_map_iff in Hx as (y & <- & Hy). now apply (c_below _ _ _ _ HC).
Qed.
Lemma pend_parallel w R ts js t p : CI w (MTask QUEUE_PENDING t :: R) ts js -> String.eqb (trim_space (t_if t)) "false" = false -> t_parallel t = Some p ->
  exists w', run (pending_handler O t) w = (w', Ok tt) /\ goes (MTask QUEUE_PENDING t) R w ts js w'.
Proof.
  intros HC Hif Hp. destruct (pend_facts _ _ _ _ _ HC) as (u & j & A & S & W & (D1 & D2 & D3) & Ct & Wt & Cu & Ej & Ep & J1 & J2).
  destruct (c_row _ _ _ _ HC _ _ A) as (Hi & Hlt & Hid & Hu & Hok & Hin). destruct (c_job _ _ _ _ HC _ _ J1) as (_ & _ & Jid & Hj & Hjok & _). pose proof (ci_f _ _ _ _ HC) as Hf.
  destruct (proj1 (proj2 Ct) p Hp) as (P0 & Pp). pose proof Wt as Wt'. apply wf_eq in Wt' as (_&_&_&_&_&_&_&_&_& Wp & _). destruct (Wp p Hp) as (Pn & Pw).
  rewrite Forall_forall in Pp, Pw.
  set (u' := u <| t_state := TRunning |> <| t_scheduled := Some (w_clock w) |> <| t_started := Some (w_clock w) |>).
  set (w1 := w <| w_tasks := put_task u' (w_tasks w) |>).
  assert (Hb : ids_below w1) by (apply (below_put w _ ts js u u' HC); change (t_id u') with (t_id u); now rewrite Hid).
  destruct (parallel_run O t j (w_clock w) (p_tasks p) Jid w1 Hf Hb (ex_intro _ j Hj)) as (cs & Hk & Hr).
  { intros x Hx. destruct (task_eval O (j_context j) None x (Pw x Hx)) as (d & Ed & _). eauto. }
  exists (spawned w1 cs cs). split.
  { unfold pending_handler. rewrite Hif. unfold schedule_task. rewrite Hp. unfold schedule_parallel. rewrite run_bind, run_now, run_bind.
    erewrite run_update_task; [|exact Hf|exact Hu|reflexivity]. fold u'. fold w1.
    rewrite run_bind, run_get_job by exact Hf. change (find_job (t_job t) w1) with (find_job (t_job t) w). rewrite Hj. exact Hr. }
  pose proof (pkids_length _ _ _ _ _ _ _ Hk) as Hlen.
  assert (HF : forall c, In c cs -> kidok t c /\ t_state c = TPending).
  { intros c Hc. apply In_nth_error in Hc as (n & En). destruct (pkids_nth _ _ _ _ _ _ _ Hk n c En) as (x & Ex & d & Ed & ->). apply nth_error_In in Ex.
    destruct (task_eval O (j_context j) None x (Pw x Ex)) as (d' & Ed' & Wd & Wwd). rewrite Ed in Ed'. injection Ed' as <-.
    split; [|reflexivity]. split; [reflexivity|]. split; [reflexivity|]. split; [right; reflexivity|]. split; [apply clean_identity, pristine_clean; eapply eval_pristine; [apply Pp; exact Ex|exact Ed]|].
    split; [now apply wf_identity|]. rewrite weight_identity, Wwd. rewrite (weight_eq t), Hp. assert (weight x <= sumn (map weight (p_tasks p)))%nat by (apply sumn_in, in_map; exact Ex). lia. }
  apply (goes_fan w R ts js t u u' (APar (Z.of_nat (length cs)) 0) cs cs HC A); try reflexivity.
  - discriminate.
  - discriminate.
  - unfold vst. change (t_state u') with TRunning. cbn iota. change (t_parallel u') with (t_parallel u). rewrite <- D1, Hp, Hlen, P0. reflexivity.
  - intros ->. destruct (p_tasks p); [contradiction Pn; reflexivity|discriminate].
  - apply Forall_forall. intros c Hc. apply (HF c Hc).
  - exact (pkids_ids _ _ _ _ _ _ Hk).
  - symmetry. assert (X : forall l : list task, (forall c, In c l -> t_state c = TPending) -> filter pendb l = l).
    { induction l as [|c l IH]; intros H; [reflexivity|]. cbn. unfold pendb at 1. rewrite (H c) by (left; reflexivity). cbn. f_equal. apply IH. intros; apply H; now right. }
    apply X. intros c Hc. apply (HF c Hc).
  - exact W.
  - left. split; [reflexivity|]. apply Forall_forall. intros c Hc. apply (HF c Hc).
  - right. exact S.
Qed.

Lemma kids_ids t e clk ds : forall k i, map t_id (PropsFan.kids t e clk k i ds) = nseq i (length ds).
Proof. induction ds as [|d ds IH]; intros k i; [reflexivity|]. cbn [PropsFan.kids map length nseq]. now rewrite IH. Qed.
Lemma pubs_filter t e clk ds : forall k i, pubs e k (PropsFan.kids t e clk k i ds) = filter pendb (PropsFan.kids t e clk k i ds).
Proof.
  induction ds as [|d ds IH]; intros k i; [reflexivity|]. cbn [PropsFan.kids pubs filter]. rewrite IH. unfold pendb at 2, child_from, firedb. cbn.
  destruct ((e_concurrency e =? 0) || (Z.of_nat k <? e_concurrency e))%bool; reflexivity.
Qed.
Lemma kids_created t e clk ds : 0 <= e_concurrency e -> forall k i,
  Z.of_nat (cnt (fun c => tstate_eqb (t_state c) TCreated) (PropsFan.kids t e clk k i ds)) =
  if e_concurrency e =? 0 then 0 else Z.max 0 (Z.of_nat (length ds) - Z.max 0 (e_concurrency e - Z.of_nat k)).
Proof.
  intros H0. induction ds as [|d ds IH]; intros k i.
  - cbn [PropsFan.kids length]. match goal with |- Z.of_nat ?x = _ => change x with 0%nat end. destruct (e_concurrency e =? 0); lia.
  - cbn [PropsFan.kids length]. rewrite cnt_cons, Nat2Z.inj_add, IH. unfold child_from. match goal with |- context [b2n (tstate_eqb (t_state (identity _ _ _ ?s _ _ _)) _)] => change (t_state (identity (i) (t_job t) (t_id t) s (t_position t) (Some clk) d)) with s end.
    destruct (e_concurrency e =? 0) eqn:E; [reflexivity|]. cbn [orb]. apply Z.eqb_neq in E.
    destruct (Z.of_nat k <? e_concurrency e) eqn:L; [apply Z.ltb_lt in L|apply Z.ltb_ge in L]; cbn [tstate_eqb b2n]; lia.
Qed.
Lemma pend_each w R ts js t e : CI w (MTask QUEUE_PENDING t :: R) ts js -> String.eqb (trim_space (t_if t)) "false" = false -> t_parallel t = None -> t_each t = Some e ->
  exists w', run (pending_handler O t) w = (w', Ok tt) /\ goes (MTask QUEUE_PENDING t) R w ts js w'.
Proof.
  intros HC Hif Hp He. destruct (pend_facts _ _ _ _ _ HC) as (u & j & A & S & W & (D1 & D2 & D3) & Ct & Wt & Cu & Ej & Ep & J1 & J2).
  destruct (c_row _ _ _ _ HC _ _ A) as (Hi & Hlt & Hid & Hu & Hok & Hin). destruct (c_job _ _ _ _ HC _ _ J1) as (_ & _ & Jid & Hj & Hjok & _). pose proof (ci_f _ _ _ _ HC) as Hf.
  destruct (proj1 (proj2 (proj2 Ct)) e He) as (P0 & Pe). pose proof Wt as Wt'. apply wf_eq in Wt' as (_&_&_&_&_&_&_&_&_&_& We & _). destruct (We e He) as (Kn & Hl & Wd).
  destruct (Hl (j_context j)) as (x0 & l0 & El). set (l := x0 :: l0) in *.
  destruct (instances_exist O (j_context j) (first_set [e_var e; "item"]) l 0%nat (e_task e) Wd Pe) as (ds & Hi' & HF).
  set (u' := u <| t_state := TRunning |> <| t_scheduled := Some (w_clock w) |> <| t_started := Some (w_clock w) |>
               <| t_each := Some (e <| e_size := Z.of_nat (length l) |> <| e_index := e_concurrency e |>) |>).
  set (w1 := w <| w_tasks := put_task u' (w_tasks w) |>).
  assert (Hb : ids_below w1) by (apply (below_put w _ ts js u u' HC); change (t_id u') with (t_id u); now rewrite Hid).
  pose proof (each_run O t e j (w_clock w) _ _ _ _ Jid Hi' w1 Hf Hb (ex_intro _ j Hj)) as Hr. change (w_fresh w1) with (w_fresh w) in Hr.
  set (cs := PropsFan.kids t e (w_clock w) 0 (w_fresh w) ds) in *.
  assert (Hds : length ds = length l) by exact (instances_length _ _ _ _ _ _ _ Hi').
  assert (Hlen : length cs = length l) by (unfold cs; rewrite kids_length; exact Hds).
  exists (spawned w1 cs (pubs e 0 cs)). split.
  { unfold pending_handler. rewrite Hif. unfold schedule_task. rewrite Hp, He. unfold schedule_each. rewrite run_bind, run_now, run_bind, run_get_job, Hj by exact Hf.
    rewrite El, run_bind. erewrite run_update_task; [|exact Hf|exact Hu|unfold mark_each_running; rewrite <- D2, He; reflexivity].
    change 0 with (Z.of_nat 0). fold u'. fold w1. exact Hr. }
  apply (goes_fan w R ts js t u u' (AEa (Z.of_nat (length cs)) 0 (e_concurrency e) (e_concurrency e)) cs (pubs e 0 cs) HC A); try reflexivity.
  - discriminate.
  - discriminate.
  - unfold vst. change (t_state u') with TRunning. cbn iota. change (t_parallel u') with (t_parallel u). rewrite <- D1, Hp, Hlen. change (t_each u') with (Some (e <| e_size := Z.of_nat (length l) |> <| e_index := e_concurrency e |>)).
    cbn iota. cbn [e_size e_completions e_concurrency e_index set]. cbn -[Z.of_nat length]. now rewrite P0.
  - intros E. rewrite E in Hlen. discriminate.
  - apply Forall_forall. intros c Hc. apply In_nth_error in Hc as (n & En). destruct (kids_nth _ _ _ _ _ _ _ _ En) as (d & Ed & ->).
    rewrite Forall_forall in HF. apply nth_error_In in Ed. destruct (HF d Ed) as (F1 & F2 & F3). unfold child_from.
    split; [reflexivity|]. split; [reflexivity|]. split; [unfold before; cbn; destruct (_ || _)%bool; auto|]. split; [apply clean_identity, pristine_clean; exact F2|].
    split; [now apply wf_identity|]. rewrite weight_identity, F3, (weight_eq t), He. lia.
  - unfold cs. rewrite kids_ids, kids_length. reflexivity.
  - unfold cs. apply pubs_filter.
  - exact W.
  - right. exists (e_concurrency e). split; [exact Kn|]. split; [reflexivity|]. unfold cs. rewrite (kids_created t e (w_clock w) ds Kn), kids_length. destruct (e_concurrency e =? 0); [reflexivity|]. cbn -[Z.of_nat Z.max Z.sub]. f_equal. lia.
  - right. exact S.
Qed.
Lemma find_job_app js jn j : kfind j_id (j_id jn) js = None -> j = jn -> kfind j_id (j_id j) (js ++ [jn]) = Some jn.
Proof. intros H ->. rewrite kfind_app, H. unfold kfind. cbn. now rewrite N.eqb_refl. Qed.
Lemma pend_sub w R ts js t s : CI w (MTask QUEUE_PENDING t :: R) ts js -> String.eqb (trim_space (t_if t)) "false" = false -> t_parallel t = None -> t_each t = None -> t_subjob t = Some s ->
  exists w', run (pending_handler O t) w = (w', Ok tt) /\ goes (MTask QUEUE_PENDING t) R w ts js w'.
Proof.
  intros HC Hif Hp He Hs. destruct (pend_facts _ _ _ _ _ HC) as (u & j & A & S & W & (D1 & D2 & D3) & Ct & Wt & Cu & Ej & Ep & J1 & J2).
  destruct (c_row _ _ _ _ HC _ _ A) as (Hi & Hlt & Hid & Hu & Hok & Hin). destruct (c_job _ _ _ _ HC _ _ J1) as (_ & _ & Jid & Hj & Hjok & _). pose proof (ci_f _ _ _ _ HC) as Hf.
  pose proof (proj2 (proj2 (proj2 Ct)) s Hs) as Ps. pose proof Wt as Wt'. apply wf_eq in Wt' as (_&_&_&_&_&_&_&_&_&_&_& Ws). destruct (Ws s Hs) as (Sn & _ & _ & _ & _ & So & St).
  pose proof (ci_x _ _ _ _ HC) as Hx.
  set (a := negb (s_detached s)). set (sj := make_subjob j t s (w_clock w) (w_fresh w) a).
  assert (Hsj : jobok sj).
  { split; [exact Hx|]. split; [exact Sn|]. split; [exact Ps|]. split; [exact St|]. split; [reflexivity|]. split; [exact So|left; reflexivity]. }
  set (u' := u <| t_state := TRunning |> <| t_scheduled := Some (w_clock w) |> <| t_started := Some (w_clock w) |> <| t_subjob := Some (s <| s_id := w_fresh w |>) |>).
  set (t' := t <| t_completed := Some (w_clock w) |> <| t_state := TCompleted |>).
  set (new := MJob sj :: if s_detached s then [MTask QUEUE_COMPLETED t'] else []).
  set (w' := w <| w_fresh := N.succ (w_fresh w) |> <| w_tasks := put_task u' (w_tasks w) |> <| w_jobs := w_jobs w ++ [sj] |> <| w_hist := w_hist w ++ new |>).
  assert (Hnj : kfind j_id (w_fresh w) js = None).
  { destruct (kfind j_id (w_fresh w) js) as [x|] eqn:E; [|reflexivity]. exfalso. destruct (c_job _ _ _ _ HC _ _ E) as (_ & L & _). lia. }
  exists w'. split.
  { unfold pending_handler. rewrite Hif. unfold schedule_task. rewrite Hp, He, Hs. unfold w', new, sj, a. destruct (s_detached s) eqn:Hd; cbn [negb].
    - unfold schedule_detached.
      rewrite run_bind, run_get_job, Hj, run_bind, run_now, run_bind, run_new_id by exact Hf.
      rewrite run_bind, run_create_job; [|exact Hf|exact (c_newjob _ _ _ _ HC)].
      unfold publish_job. rewrite run_bind, run_publish by exact Hf.
      rewrite run_bind. erewrite run_update_task; [|exact Hf|exact Hu|unfold mark_subjob_running; rewrite <- D3, Hs; reflexivity].
      rewrite run_with_msg. unfold publish_task. rewrite run_publish by exact Hf. f_equal. apply world_eq; try reflexivity. cbn. now rewrite <- app_assoc.
    - unfold schedule_attached.
      rewrite run_bind, run_get_job, Hj, run_bind, run_now, run_bind, run_new_id by exact Hf.
      rewrite run_bind. erewrite run_update_task; [|exact Hf|exact Hu|unfold mark_subjob_running; rewrite <- D3, Hs; reflexivity].
      rewrite run_bind, run_create_job; [|exact Hf|exact (c_newjob _ _ _ _ HC)].
      unfold publish_job. rewrite run_publish by exact Hf. reflexivity. }
  apply (goes_pend w R ts js t u u' (if s_detached s then ADe else ASu (w_fresh w)) [] [sj] new w' HC A); try reflexivity.
  - discriminate.
  - discriminate.
  - unfold vst. change (t_state u') with TRunning. cbn iota. change (t_parallel u') with (t_parallel u). change (t_each u') with (t_each u). rewrite <- D1, Hp, <- D2, He.
    change (t_subjob u') with (Some (s <| s_id := w_fresh w |>)). cbn iota. reflexivity.
  - now rewrite app_nil_r.
  - exact Hf.
  - unfold w'. cbn. lia.
  - apply Forall_nil.
  - apply Forall_cons; [exact Hsj|apply Forall_nil].
  - unfold new. apply Forall_cons.
    + split; [reflexivity|]. exists sj. split; [|reflexivity]. apply find_job_app; [exact Hnj|reflexivity].
    + destruct (s_detached s); [|apply Forall_nil]. apply Forall_cons; [|apply Forall_nil]. exists u'. split; [|split; [left; reflexivity|split; [intros [B|B]; discriminate B|split; intros B; discriminate B]]].
      split; [exact (find_put_self ts t u u' [] A eq_refl)|]. split; [exact Ej|exact Ep].
  - cbn [map]. rewrite app_nil_r.
    assert (T : map tok new = KJ (w_fresh w) (map weight (s_tasks s)) :: (if s_detached s then [KC (t_id t)] else [])).
    { unfold new. cbn [map]. f_equal. destruct (s_detached s); reflexivity. }
    rewrite T. change (w_fresh w') with (N.succ (w_fresh w)).
    apply (s_sub (map view ts) (map jview js) (map tok R) (w_fresh w) (t_id t) (weight t) (view u) _ (jview sj)).
    + exact (c_rfind ts _ _ A).
    + reflexivity.
    + reflexivity.
    + cbn. destruct (s_tasks s); [contradiction Sn; reflexivity|discriminate].
    + cbn [jview q_hs]. change (j_tasks sj) with (s_tasks s). rewrite (weight_eq t), Hs. lia.
    + unfold jview, sj, a. cbn [q_par j_parent make_subjob]. destruct (s_detached s); cbn [negb]; [right|left]; repeat split; reflexivity.
  - right. exact S.
  - apply Forall_nil.
  - intros i. assert (Tk : taken u' = false).
    { unfold taken, plain. change (t_state u') with TRunning. cbn iota. change (t_parallel u') with (t_parallel u). change (t_each u') with (t_each u). rewrite <- D1, Hp, <- D2, He. reflexivity. }
    rewrite Tk, given_none; [destruct (N.eqb i (t_id t)); reflexivity|]. unfold new. apply Forall_cons; [reflexivity|]. destruct (s_detached s); [|apply Forall_nil]. apply Forall_cons; [reflexivity|apply Forall_nil].
Qed.
Lemma pend_all w R ts js t : CI w (MTask QUEUE_PENDING t :: R) ts js ->
  exists w', run (pending_handler O t) w = (w', Ok tt) /\ goes (MTask QUEUE_PENDING t) R w ts js w'.
Proof.
  intros HC. destruct (String.eqb (trim_space (t_if t)) "false") eqn:Hif; [now apply pend_skip|].
  destruct (t_parallel t) as [p|] eqn:Hp; [now apply (pend_parallel w R ts js t p)|].
  destruct (t_each t) as [e|] eqn:He; [now apply (pend_each w R ts js t e)|].
  destruct (t_subjob t) as [s|] eqn:Hs; [now apply (pend_sub w R ts js t s)|].
  apply pend_regular; [exact HC|exact Hif|]. split; [exact Hp|]. split; [exact He|exact Hs].
Qed.
(** ** The completed handler *)
Lemma ci_one m R w ts js w' ts' js' new : CI w (m :: R) ts js ->
  w_tasks w' = told ++ ts' -> w_jobs w' = jold ++ js' -> w_nodes w' = nodes0 -> w_faults w' = [] -> (i0 <= w_fresh w')%N ->
  Forall rowok ts' -> Forall jobok js' -> Rel ts ts' -> JRel js js' -> Forall (msgok ts' js') new ->
  astep (alpha w ts js (m :: R)) (alpha w' ts' js' (new ++ R)) ->
  CI w' (new ++ R) ts' js' /\ asteps (alpha w ts js (m :: R)) (alpha w' ts' js' (new ++ R)).
Proof.
  intros HC H2 H3 H4 H5 H6 H7 H8 H9 H10 H11 St.
  assert (A : asteps (alpha w ts js (m :: R)) (alpha w' ts' js' (new ++ R))) by (eapply as_one; [apply aeq_refl|exact St|apply aeq_refl]).
  split; [|exact A]. split; try assumption.
  - apply Forall_app. split; [exact H11|]. pose proof (ci_msgs _ _ _ _ HC) as HM. inversion HM; subst. eapply msgs_stable; eassumption.
  - exact (asteps_AI _ _ A (ci_ai _ _ _ _ HC)).
Qed.
Lemma goes_via m v R w ts js w1 ts1 js1 w' : w_hist w1 = w_hist w -> asteps (alpha w ts js (m :: R)) (alpha w1 ts1 js1 (v :: R)) ->
  (forall i, takes i ts1 = takes i ts) -> goes v R w1 ts1 js1 w' -> goes m R w ts js w'.
Proof.
  intros Hh A K (ts' & js' & new & H & C & B & G). exists ts', js', new. split; [now rewrite H, Hh|]. split; [exact C|]. split; [eapply as_more; eassumption|].
  intros i. rewrite <- (K i). exact (G i).
Qed.
Definition done_row (t u : task) : task := u <| t_state := t_state t |> <| t_completed := t_completed t |> <| t_result := t_result t |>.
Lemma vst_fan_par p n c : vst p = APar n c -> t_state p = TRunning /\ exists x, t_parallel p = Some x /\ n = Z.of_nat (length (p_tasks x)) /\ c = p_completions x.
Proof.
  unfold vst. destruct (t_state p); try discriminate.
  - destruct (t_parallel p), (t_each p), (t_subjob p); discriminate.
  - destruct (t_parallel p) as [x|]; [|destruct (t_each p); [discriminate|]; destruct (t_subjob p) as [s|]; [destruct (s_detached s)|]; discriminate]. intros E. injection E as <- <-. eauto.
  - destruct (t_completed p); discriminate.
Qed.
Lemma vst_fan_each p n c k ix : vst p = AEa n c k ix -> t_state p = TRunning /\ t_parallel p = None /\
  exists x, t_each p = Some x /\ n = e_size x /\ c = e_completions x /\ k = e_concurrency x /\ ix = e_index x.
Proof.
  unfold vst. destruct (t_state p); try discriminate.
  - destruct (t_parallel p), (t_each p), (t_subjob p); discriminate.
  - destruct (t_parallel p) as [x|]; [discriminate|]. destruct (t_each p) as [x|]; [|destruct (t_subjob p) as [s|]; [destruct (s_detached s)|]; discriminate]. intros E. injection E as <- <- <- <-. eauto 10.
  - destruct (t_completed p); discriminate.
Qed.
Lemma comp_facts w R ts js t : CI w (MTask QUEUE_COMPLETED t :: R) ts js ->
  exists u j, kfind t_id (t_id t) ts = Some u /\ acceptable (t_state u) /\ (t_state t = TCompleted \/ t_state t = TSkipped) /\ t_job t = t_job u /\ t_parent t = t_parent u /\
    kfind j_id (t_job t) js = Some j /\ j_state j <> JPending /\ iscr (vst u) = false /\ vst u <> AFi.
Proof.
  intros HC. pose proof (ci_msgs _ _ _ _ HC) as HM. inversion HM as [|? ? M _]; subst. destruct M as (u & (A & B & C) & D). unfold mtaskok in D. cbn in D.
  destruct (ai_kc _ (ci_ai _ _ _ _ HC) (t_id t)) as (r & R1 & R2); [left; reflexivity|]. cbn in R1. apply rfind_view in R1 as (u1 & U1 & ->). rewrite A in U1. injection U1 as <-.
  destruct (c_own _ _ _ _ HC _ _ A) as (j & J1 & J2). exists u, j. split; [exact A|]. split.
  - revert R2. cbn. unfold vst, acceptable. destruct (t_state u); auto; intros [].
  - split; [exact (proj1 D)|]. split; [exact B|]. split; [exact C|]. rewrite B. split; [exact J1|]. split; [exact J2|]. cbn in R2. split; [destruct (vst u); try reflexivity; destruct R2|]. intros E. rewrite E in R2. exact R2.
Qed.
Lemma comp_skip w R ts js t u : CI w (MTask QUEUE_COMPLETED t :: R) ts js -> kfind t_id (t_id t) ts = Some u -> ~ before u /\ (t_state u = TSkipped <-> t_state t = TSkipped).
Proof.
  intros HC A0. pose proof (ci_msgs _ _ _ _ HC) as HM. inversion HM as [|? ? M _]; subst. destruct M as (u0 & (A & B & C) & D). rewrite A0 in A. injection A as <-. exact (proj2 D).
Qed.
Lemma taken_done t u : (t_state t = TCompleted \/ t_state t = TSkipped) -> acceptable (t_state u) -> (t_state u = TSkipped <-> t_state t = TSkipped) -> taken (done_row t u) = taken u.
Proof.
  intros H Acc (S1 & S2). unfold taken. change (t_state (done_row t u)) with (t_state t). change (plain (done_row t u)) with (plain u).
  destruct Acc as [E|[E|E]]; destruct H as [F|F]; rewrite F; try (rewrite E; reflexivity); first [pose proof (S1 E) as X; rewrite F in X; discriminate X|pose proof (S2 F) as X; rewrite E in X; discriminate X].
Qed.
Lemma vst_done t u c : (t_state t = TCompleted \/ t_state t = TSkipped) -> t_completed t = Some c -> vst (done_row t u) = AFi.
Proof. intros H E. unfold vst. change (t_state (done_row t u)) with (t_state t). change (t_completed (done_row t u)) with (t_completed t). rewrite E. destruct H as [-> | ->]; reflexivity. Qed.
Lemma done_ok t u : (t_state t = TCompleted \/ t_state t = TSkipped) -> ~ before u /\ (t_state u = TSkipped <-> t_state t = TSkipped) -> (i0 <= t_id u)%N -> rowok (done_row t u) /\ rel u (done_row t u).
Proof.
  intros H (_ & Sk) Hi. assert (N1 : t_state (done_row t u) <> TCreated) by (change (t_state (done_row t u)) with (t_state t); destruct H as [-> | ->]; discriminate).
  assert (N2 : t_state (done_row t u) <> TPending) by (change (t_state (done_row t u)) with (t_state t); destruct H as [-> | ->]; discriminate).
  split; [now apply rowok_running|]. apply rel_running; try assumption; try reflexivity. intros _. change (t_state (done_row t u)) with (t_state t). symmetry. exact Sk.
Qed.
Lemma put_ctx w U ts js t j : CI w U ts js -> kfind j_id (t_job t) js = Some j -> j_state j <> JPending ->
  exists js1, (forall w', w_jobs w' = w_jobs w -> w_faults w' = [] -> a_put_context t w' = (w' <| w_jobs := jold ++ js1 |>, Ok tt)) /\
    map jview js1 = map jview js /\ JRel js js1 /\ Forall jobok js1.
Proof.
  intros HC J1 J2. destruct (c_job _ _ _ _ HC _ _ J1) as (Ji & _ & Jid & Hj & Hjok & Hin). unfold a_put_context.
  destruct (nonempty (t_result t) && nonempty (t_var t))%bool.
  - set (j' := j <| j_context := ctx_put t (j_context j) |>). exists (put_job j' js). split; [|split; [|split]].
    + intros w' Ew Hf. assert (Hj' : find_job (t_job t) w' = Some j) by (unfold find_job in *; rewrite Ew; exact Hj).
      erewrite act_update_job; [|exact Hf|exact Hj'|reflexivity]. fold j'. rewrite Ew, (ci_j _ _ _ _ HC), put_job_new by (change (j_id j') with (j_id j); lia). reflexivity.
    + rewrite map_put_jview. change (jview j') with (jview j). apply qput_same; [exact (c_jnodup _ _ _ _ HC)|]. now rewrite Jid.
    + apply (JRel_put js j j'); [now rewrite Jid|reflexivity|]. intros E. contradiction.
    + apply jobs_put; [exact (ci_jobs _ _ _ _ HC)|exact Hjok].
  - exists js. split; [|split; [reflexivity|split; [apply JRel_refl|exact (ci_jobs _ _ _ _ HC)]]].
    intros w' Ew Hf. unfold aret. f_equal. apply world_eq; try reflexivity. cbn. now rewrite Ew, (ci_j _ _ _ _ HC).
Qed.
Lemma find_put w ts v v0 i : w_tasks w = told ++ put_task v ts -> (i0 <= i)%N -> kfind t_id (t_id v) ts = Some v0 ->
  find_task i w = if N.eqb i (t_id v) then Some v else kfind t_id i ts.
Proof. intros E Hi Hv. rewrite (find_task_new w _ i E Hi). exact (kfind_put t_id v ts i v0 Hv). Qed.
Lemma parent_facts w R ts js t u : CI w (MTask QUEUE_COMPLETED t :: R) ts js -> kfind t_id (t_id t) ts = Some u -> t_parent u <> 0%N ->
  vst u <> AFi -> exists p, kfind t_id (t_parent u) ts = Some p /\ t_job p = t_job u /\ (t_parent u < t_id u)%N /\ isfan (vst p) = true.
Proof.
  intros HC A Hp Hn. pose proof (proj1 (kfind_some t_id _ _ _ A)) as Hin. destruct (ai_par _ (ci_ai _ _ _ _ HC) (view u) (in_map view _ _ Hin) Hp) as (r & R1 & R2 & R3 & R4).
  cbn in R1. apply rfind_view in R1 as (p & P1 & ->). exists p. split; [exact P1|]. split; [exact R2|]. split; [exact R3|]. destruct R4 as [R4|[_ R4]]; [exact R4|contradiction].
Qed.
Lemma comp_parallel w R ts js t u p x c : CI w (MTask QUEUE_COMPLETED t :: R) ts js -> t_completed t = Some c -> kfind t_id (t_id t) ts = Some u -> t_parent u <> 0%N ->
  kfind t_id (t_parent u) ts = Some p -> t_state p = TRunning -> t_parallel p = Some x ->
  exists w1 ts1 js1 p1 (last : bool), run (with_tx (a_complete_parallel t)) w = (w1, Ok last) /\ w_hist w1 = w_hist w /\ w_clock w1 = w_clock w /\ kfind t_id (t_parent u) ts1 = Some p1 /\ (forall i, takes i ts1 = takes i ts) /\
    let new := if last then [MTask QUEUE_COMPLETED (p1 <| t_state := TCompleted |> <| t_completed := Some (w_clock w1) |>)] else [] in
    CI w1 (new ++ R) ts1 js1 /\ asteps (alpha w ts js (MTask QUEUE_COMPLETED t :: R)) (alpha w1 ts1 js1 (new ++ R)).
Proof.
  intros HC Hc A0 Hp P Sp Xp. destruct (comp_facts _ _ _ _ _ HC) as (u0 & j & A & Acc & St & Ej & Ep & J1 & J2 & Ncr & Nf). rewrite A0 in A. injection A as <-. rename A0 into A.
  destruct (parent_facts _ _ _ _ _ _ HC A Hp Nf) as (p0 & P0 & Pj & Plt & _). rewrite P in P0. injection P0 as <-.
  destruct (c_row _ _ _ _ HC _ _ A) as (Hi & Hlt & Hid & Hu & Hok & Hin). destruct (c_row _ _ _ _ HC _ _ P) as (Pi & Plt' & Pid & Pu & Pok & Pin).
  pose proof (ci_f _ _ _ _ HC) as Hf. destruct (put_ctx _ _ _ _ t j HC J1 J2) as (js1 & HX & V1 & V2 & V3).
  set (u1 := done_row t u). set (k := p_completions x + 1). set (p1 := p <| t_parallel := Some (x <| p_completions := k |>) |>).
  pose proof (comp_skip _ _ _ _ _ _ HC A) as Sk. destruct (done_ok t u St Sk ltac:(lia)) as (Uok & Urel). fold u1 in Uok, Urel.
  assert (Prel : rel p p1) by (apply rel_running; try reflexivity; change (t_state p1) with (t_state p); rewrite Sp; discriminate).
  assert (Hfu : kfind t_id (t_id u) ts = Some u) by (rewrite Hid; exact A). pose proof (taken_done t u St Acc (proj2 Sk)) as Ut. fold u1 in Ut.
  assert (Pok1 : rowok p1) by (apply rowok_running; [change (t_id p1) with (t_id p); lia| |]; change (t_state p1) with (t_state p); rewrite Sp; discriminate).
  assert (FP : kfind t_id (t_parent u) (put_task u1 ts) = Some p).
  { change (put_task u1 ts) with (kput t_id u1 ts). rewrite (kfind_put t_id u1 ts (t_parent u) u) by (change (t_id u1) with (t_id u); now rewrite Hid).
    change (t_id u1) with (t_id u). destruct (N.eqb (t_parent u) (t_id u)) eqn:E; [apply N.eqb_eq in E; lia|exact P]. }
  set (ts1 := put_task p1 (put_task u1 ts)). set (last := Z.of_nat (length (p_tasks x)) <=? k).
  set (w1 := w <| w_auto := [] |> <| w_tasks := told ++ ts1 |> <| w_jobs := jold ++ js1 |>).
  exists w1, ts1, js1, p1, last. split.
  { erewrite (run_with_tx_ok _ w w1 last); [reflexivity| |exact Hf]. unfold a_complete_parallel, abind.
    erewrite act_update_task; [|exact Hf|exact Hu|apply complete_modify_acc; exact Acc]. fold (done_row t u). fold u1.
    erewrite act_update_task; [|exact Hf| |].
    3:{ unfold bump_parallel. rewrite Xp. reflexivity. }
    2:{ rewrite Ep. rewrite (find_task_new _ (put_task u1 ts)); [exact FP| |exact Pi]. transitivity (put_task u1 (w_tasks w)); [reflexivity|]. rewrite (ci_t _ _ _ _ HC). apply put_task_new. change (t_id u1) with (t_id u). lia. }
    fold k. fold p1. fold last. rewrite HX; [|reflexivity|exact Hf]. unfold aret. f_equal. apply world_eq; try reflexivity. change (put_task p1 (put_task u1 (w_tasks w)) = told ++ ts1). unfold ts1. rewrite (ci_t _ _ _ _ HC), !put_task_new; [reflexivity| |].
    - change (t_id p1) with (t_id p). lia.
    - change (t_id u1) with (t_id u). lia. }
  split; [reflexivity|]. split; [reflexivity|].
  assert (F1 : kfind t_id (t_parent u) ts1 = Some p1).
  { unfold ts1. change (put_task p1 (put_task u1 ts)) with (kput t_id p1 (put_task u1 ts)). rewrite (kfind_put t_id p1 _ _ p) by (change (t_id p1) with (t_id p); rewrite Pid; exact FP).
    change (t_id p1) with (t_id p). now rewrite Pid, N.eqb_refl. }
  split; [exact F1|]. split.
  { intros i. unfold ts1. rewrite (takes_same i (put_task u1 ts) p p1); [exact (takes_same i ts u u1 Hfu eq_refl Ut)|rewrite Pid; exact FP|reflexivity|].
    unfold taken, plain. change (t_state p1) with (t_state p). rewrite Sp, Xp. reflexivity. }
  intros new.
  apply (ci_one _ R w ts js w1 ts1 js1 new HC); try reflexivity.
  - exact (ci_n _ _ _ _ HC).
  - exact Hf.
  - exact (ci_x _ _ _ _ HC).
  - unfold ts1. apply rows_put; [|exact Pok1]. apply rows_put; [exact (ci_rows _ _ _ _ HC)|exact Uok].
  - exact V3.
  - unfold ts1. apply (Rel_trans _ (put_task u1 ts)); [apply (Rel_put ts u u1); [now rewrite Hid|exact Urel]|]. apply (Rel_put _ p p1); [rewrite Pid; exact FP|exact Prel].
  - exact V2.
  - unfold new. destruct last; [|apply Forall_nil]. apply Forall_cons; [|apply Forall_nil]. exists p1. split; [|split; [left; reflexivity|change (t_state p1) with (t_state p); unfold before; change (t_state p1) with (t_state p); rewrite Sp; split; [intros [B|B]; discriminate B|split; intros B; discriminate B]]].
    split; [|split; reflexivity]. change (t_id (p1 <| t_state := TCompleted |> <| t_completed := Some (w_clock w1) |>)) with (t_id p). rewrite Pid. exact F1.
  - unfold alpha. rewrite V1. unfold ts1. rewrite (put_view (put_task u1 ts) p p1 (APar (Z.of_nat (length (p_tasks x))) k)); try reflexivity.
    2:{ unfold vst. change (t_state p1) with (t_state p). rewrite Sp. reflexivity. }
    rewrite (put_view ts u u1 AFi); try reflexivity.
    2:{ exact (vst_done t u c St Hc). }
    rewrite map_app. assert (T : map tok new = if Z.of_nat (length (p_tasks x)) <=? k then [KC (t_parent u)] else []).
    { unfold new. fold last. destruct last; [|reflexivity]. cbn [map]. change (tok (MTask QUEUE_COMPLETED ?z)) with (KC (t_id z)). cbn [map]. rewrite <- Pid. reflexivity. }
    rewrite T. change (tok (MTask QUEUE_COMPLETED t)) with (KC (t_id t)).
    apply (s_kid (map view ts) (map jview js) (map tok R) (w_fresh w) (t_id t) (view u) (view p) (Z.of_nat (length (p_tasks x))) (p_completions x)).
    + exact (c_rfind ts _ _ A).
    + exact Hp.
    + exact (c_rfind ts _ _ P).
    + cbn. unfold vst. rewrite Sp, Xp. reflexivity.
Qed.
Lemma wf_state s t : well_formed O t -> well_formed O (t <| t_state := s |>).
Proof. destruct t; auto. Qed.
Lemma tstate_eqb_eq a b : tstate_eqb a b = true -> a = b.
Proof. destruct a, b; try discriminate; reflexivity. Qed.
Lemma created_kid w U ts js p x : CI w U ts js -> In p ts -> t_state p = TRunning -> t_parallel p = None -> t_each p = Some x ->
  0 < e_concurrency x -> e_index x < e_size x -> exists z, In z ts /\ t_parent z = t_id p /\ t_state z = TCreated.
Proof.
  intros HC Hp Sp Pp Xp K L. pose proof (ai_cnt _ (ci_ai _ _ _ _ HC) (view p) (in_map view _ _ Hp)) as X. unfold counted in X. cbn [view r_st r_id a_rows alpha] in X.
  unfold vst in X. rewrite Sp, Pp, Xp in X. destruct X as (_ & _ & _ & _ & _ & X). destruct (e_concurrency x =? 0) eqn:E; [apply Z.eqb_eq in E; lia|].
  unfold crkids in X. match type of X with Z.of_nat (cnt ?f ?l) = _ => assert (Y : (0 < cnt f l)%nat) by lia; unfold cnt in Y; destruct (filter f l) as [|r q] eqn:F; [cbn in Y; lia|] ; assert (Z : In r (filter f l)) by (rewrite F; left; reflexivity) end.
  apply filter_In in Z as (Z1 & Z2). apply in_map_iff in Z1 as (z & <- & Hz). apply andb_true_iff in Z2 as (Z2 & Z3). exists z. split; [exact Hz|]. split; [apply N.eqb_eq in Z2; exact Z2|].
  cbn in Z3. unfold vst in Z3. destruct (t_state z); try discriminate; [reflexivity| | |].
  - destruct (t_parallel z), (t_each z), (t_subjob z); discriminate.
  - destruct (t_parallel z); [discriminate|]. destruct (t_each z); [discriminate|]. destruct (t_subjob z) as [s|]; [destruct (s_detached s)|]; discriminate.
  - destruct (t_completed z); discriminate.
Qed.
Lemma comp_each w R ts js t u p x c : CI w (MTask QUEUE_COMPLETED t :: R) ts js -> t_completed t = Some c -> kfind t_id (t_id t) ts = Some u -> t_parent u <> 0%N ->
  kfind t_id (t_parent u) ts = Some p -> t_state p = TRunning -> t_parallel p = None -> t_each p = Some x ->
  exists w1 ts1 js1 p1 (last : bool) rel, run (with_tx (a_complete_each t)) w = (w1, Ok last) /\ w_hist w1 = w_hist w ++ rel /\ (last = true -> rel = []) /\ kfind t_id (t_parent u) ts1 = Some p1 /\ (forall i, takes i ts1 = takes i ts) /\ (forall i, given i rel = 0%nat) /\
    let new := if last then [MTask QUEUE_COMPLETED (p1 <| t_state := TCompleted |> <| t_completed := Some (w_clock w1) |>)] else rel in
    CI w1 (new ++ R) ts1 js1 /\ asteps (alpha w ts js (MTask QUEUE_COMPLETED t :: R)) (alpha w1 ts1 js1 (new ++ R)).
Proof.
  intros HC Hc A0 Hp P Sp Pp Xp. destruct (comp_facts _ _ _ _ _ HC) as (u0 & j & A & Acc & St & Ej & Ep & J1 & J2 & Ncr & Nf). rewrite A0 in A. injection A as <-. rename A0 into A.
  destruct (parent_facts _ _ _ _ _ _ HC A Hp Nf) as (p0 & P0 & Pj & Plt & _). rewrite P in P0. injection P0 as <-.
  destruct (c_row _ _ _ _ HC _ _ A) as (Hi & Hlt & Hid & Hu & Hok & Hin). destruct (c_row _ _ _ _ HC _ _ P) as (Pi & Plt' & Pid & Pu & Pok & Pin).
  pose proof (ci_f _ _ _ _ HC) as Hf. destruct (put_ctx _ _ _ _ t j HC J1 J2) as (js1 & HX & V1 & V2 & V3).
  set (u1 := done_row t u). set (k := e_completions x + 1). set (p1 := p <| t_each := Some (x <| e_completions := k |> <| e_index := e_index x + 1 |>) |>).
  pose proof (comp_skip _ _ _ _ _ _ HC A) as Sk. destruct (done_ok t u St Sk ltac:(lia)) as (Uok & Urel). fold u1 in Uok, Urel.
  assert (Prel : rel p p1) by (apply rel_running; try reflexivity; change (t_state p1) with (t_state p); rewrite Sp; discriminate).
  assert (Hfu : kfind t_id (t_id u) ts = Some u) by (rewrite Hid; exact A). pose proof (taken_done t u St Acc (proj2 Sk)) as Ut. fold u1 in Ut.
  assert (Pok1 : rowok p1) by (apply rowok_running; [change (t_id p1) with (t_id p); lia| |]; change (t_state p1) with (t_state p); rewrite Sp; discriminate).
  assert (FP : kfind t_id (t_parent u) (put_task u1 ts) = Some p).
  { change (put_task u1 ts) with (kput t_id u1 ts). rewrite (kfind_put t_id u1 ts (t_parent u) u) by (change (t_id u1) with (t_id u); now rewrite Hid).
    change (t_id u1) with (t_id u). destruct (N.eqb (t_parent u) (t_id u)) eqn:E; [apply N.eqb_eq in E; lia|exact P]. }
  assert (TT : put_task u1 (w_tasks w) = told ++ put_task u1 ts) by (rewrite (ci_t _ _ _ _ HC); apply put_task_new; change (t_id u1) with (t_id u); lia).
  set (last := e_size x <=? k). set (rl := (negb last && (0 <? e_concurrency x) && (e_index x <? e_size x))%bool).
  assert (VP : vst p = AEa (e_size x) (e_completions x) (e_concurrency x) (e_index x)) by (unfold vst; rewrite Sp, Pp, Xp; reflexivity).
  assert (VP1 : vst p1 = AEa (e_size x) k (e_concurrency x) (e_index x + 1)) by (unfold vst; change (t_state p1) with (t_state p); change (t_parallel p1) with (t_parallel p); rewrite Sp, Pp; reflexivity).
  destruct rl eqn:Erl.
  - (* the next child is released *)
    assert (El : last = false) by (unfold rl in Erl; destruct last; [discriminate|reflexivity]).
    pose proof Erl as Erl'. unfold rl in Erl'. apply andb_true_iff in Erl' as (Erl1 & E3). apply andb_true_iff in Erl1 as (_ & E2). apply Z.ltb_lt in E2, E3.
    set (f := fun z => (N.eqb (t_parent z) (t_id p) && tstate_eqb (t_state z) TCreated)%bool).
    assert (NX : exists nx, find f (told ++ put_task u1 ts) = Some nx /\ In nx ts /\ t_id nx <> t_id u /\ t_parent nx = t_id p /\ t_state nx = TCreated).
    { destruct (created_kid _ _ _ _ p x HC Pin Sp Pp Xp E2 E3) as (z & Z1 & Z2 & Z3).
      assert (Zn : t_id z <> t_id u).
      { intros E. rewrite (nodup_key_eq t_id ts z u (c_nodup _ _ _ _ HC) Z1 Hin E) in Z3. destruct Acc as [Y|[Y|Y]]; rewrite Y in Z3; discriminate. }
      assert (Z4 : In z (put_task u1 ts)) by (change (put_task u1 ts) with (kput t_id u1 ts); apply kput_other; [exact Z1|exact Zn]).
      destruct (find f (told ++ put_task u1 ts)) as [nx|] eqn:F.
      - apply find_some in F as (F1 & F2). apply andb_true_iff in F2 as (F2 & F3). apply N.eqb_eq in F2. apply tstate_eqb_eq in F3. exists nx. split; [reflexivity|].
        apply in_app_iff in F1 as [F1|F1]; [apply Htold in F1; lia|]. change (put_task u1 ts) with (kput t_id u1 ts) in F1. apply kput_in in F1 as [[-> _]|[F1 F4]].
        + exfalso. change (t_state u1) with (t_state t) in F3. destruct St as [Y|Y]; rewrite Y in F3; discriminate.
        + split; [exact F1|]. split; [exact F4|]. split; [exact F2|exact F3].
      - exfalso. apply (find_none _ _ F z) in Z4 || (assert (Z5 := find_none _ _ F z (in_or_app _ _ _ (or_intror Z4))); unfold f in Z5; rewrite Z2, N.eqb_refl, Z3 in Z5; discriminate). }
    destruct NX as (nx & F & N1 & N2 & N3 & N4).
    assert (Nfind : kfind t_id (t_id nx) ts = Some nx) by (apply kfind_in; [exact (c_nodup _ _ _ _ HC)|exact N1]).
    destruct (c_row _ _ _ _ HC _ _ Nfind) as (Ni & Nlt & _ & Nu & (_ & Nok) & _). destruct (Nok (or_introl N4)) as (Nc & Nw).
    assert (Npar : (t_parent nx < t_id nx)%N).
    { destruct (ai_par _ (ci_ai _ _ _ _ HC) (view nx) (in_map view _ _ N1)) as (_ & _ & _ & X & _); [cbn; rewrite N3, Pid; exact Hp|exact X]. }
    set (nx' := nx <| t_state := TPending |>).
    assert (FN : kfind t_id (t_id nx) (put_task u1 ts) = Some nx).
    { change (put_task u1 ts) with (kput t_id u1 ts). rewrite (kfind_put t_id u1 ts (t_id nx) u) by (change (t_id u1) with (t_id u); now rewrite Hid).
      change (t_id u1) with (t_id u). destruct (N.eqb (t_id nx) (t_id u)) eqn:E; [apply N.eqb_eq in E; contradiction|exact Nfind]. }
    assert (FPN : kfind t_id (t_parent u) (put_task nx' (put_task u1 ts)) = Some p).
    { change (put_task nx' (put_task u1 ts)) with (kput t_id nx' (put_task u1 ts)). rewrite (kfind_put t_id nx' _ (t_parent u) nx) by exact FN.
      change (t_id nx') with (t_id nx). destruct (N.eqb (t_parent u) (t_id nx)) eqn:E; [apply N.eqb_eq in E; lia|exact FP]. }
    set (ts1 := put_task p1 (put_task nx' (put_task u1 ts))).
    set (w1 := w <| w_auto := [] |> <| w_tasks := told ++ ts1 |> <| w_jobs := jold ++ js1 |> <| w_hist := w_hist w ++ [MTask QUEUE_PENDING nx'] |>).
    exists w1, ts1, js1, p1, last, [MTask QUEUE_PENDING nx']. split.
    { erewrite (run_with_tx_ok _ w (w1 <| w_auto := [t_id nx] |>) last); [reflexivity| |exact Hf]. unfold a_complete_each, abind.
      erewrite act_update_task; [|exact Hf|exact Hu|apply complete_modify_acc; exact Acc]. fold (done_row t u). fold u1.
      match goal with |- (let '(_, _) := a_bump_each _ ?ww in _) = _ => set (w2 := ww) | |- match a_bump_each _ ?ww with _ => _ end = _ => set (w2 := ww) end.
      assert (Ht2 : w_tasks w2 = told ++ put_task u1 ts) by exact TT.
      assert (EB : a_bump_each (t_parent t) w2 = (w2 <| w_tasks := told ++ ts1 |> <| w_hist := w_hist w ++ [MTask QUEUE_PENDING nx'] |> <| w_auto := [t_id nx] |>, Ok last)).
      { unfold a_bump_each. rewrite faulty_no by exact Hf. rewrite Ep, (find_task_new w2 _ _ Ht2 Pi), FP, Xp. fold k. fold last. fold rl. rewrite Erl.
        unfold a_release_next, abind. unfold a_get_next. rewrite faulty_no by exact Hf. unfold next_created. fold f. rewrite Ht2, F.
        erewrite act_update_task; [|exact Hf| |reflexivity].
        2:{ rewrite (find_task_new w2 _ _ Ht2 Ni). exact FN. }
        unfold a_mark_auto. unfold a_publish. rewrite faulty_no by exact Hf. fold nx'. fold p1. f_equal. apply world_eq; try reflexivity.
        change (put_task p1 (put_task nx' (w_tasks w2)) = told ++ ts1). rewrite Ht2. unfold ts1. rewrite !put_task_new; [reflexivity|change (t_id p1) with (t_id p); lia|change (t_id nx') with (t_id nx); lia]. }
      rewrite EB. rewrite HX; [|reflexivity|exact Hf]. unfold aret. f_equal. }
    split; [reflexivity|]. split; [rewrite El; discriminate|].
    assert (F1 : kfind t_id (t_parent u) ts1 = Some p1).
    { unfold ts1. change (put_task p1 ?l) with (kput t_id p1 l). rewrite (kfind_put t_id p1 _ _ p) by (change (t_id p1) with (t_id p); rewrite Pid; exact FPN).
      change (t_id p1) with (t_id p). now rewrite Pid, N.eqb_refl. }
    split; [exact F1|]. split; [|split; [intros i; exact (given_one i QUEUE_PENDING nx' eq_refl)|]].
    { intros i. unfold ts1. rewrite (takes_same i _ p p1); [|rewrite Pid; exact FPN|reflexivity|].
      - rewrite (takes_same i _ nx nx'); [exact (takes_same i ts u u1 Hfu eq_refl Ut)|exact FN|reflexivity|]. unfold taken. rewrite N4. reflexivity.
      - rewrite (plain_each p _ _ _ _ VP). exact (plain_each p1 _ _ _ _ VP1). }
    intros new. assert (En : new = [MTask QUEUE_PENDING nx']) by (unfold new; rewrite El; reflexivity). rewrite En. clear En.
    apply (ci_one _ R w ts js w1 ts1 js1 [MTask QUEUE_PENDING nx'] HC); try reflexivity.
    + exact (ci_n _ _ _ _ HC).
    + exact Hf.
    + exact (ci_x _ _ _ _ HC).
    + unfold ts1. apply rows_put; [|exact Pok1]. apply rows_put; [apply rows_put; [exact (ci_rows _ _ _ _ HC)|exact Uok]|].
      split; [exact Ni|]. intros _. split; [exact Nc|]. revert Nw. apply wf_state.
    + exact V3.
    + unfold ts1. apply (Rel_trans _ (put_task u1 ts)); [apply (Rel_put ts u u1); [now rewrite Hid|exact Urel]|].
      apply (Rel_trans _ (put_task nx' (put_task u1 ts))); [apply (Rel_put _ nx nx'); [exact FN|]|apply (Rel_put _ p p1); [rewrite Pid; exact FPN|exact Prel]].
      split; [reflexivity|]. split; [reflexivity|]. split; [reflexivity|]. split; [intros _; split; [left; exact N4|repeat split]|]. intros Nb. contradiction Nb. left. exact N4.
    + exact V2.
    + apply Forall_cons; [|apply Forall_nil]. exists nx'. split.
      * split; [|split; reflexivity]. change (t_id nx') with (t_id nx). unfold ts1. change (put_task p1 ?l) with (kput t_id p1 l). rewrite (kfind_put t_id p1 _ _ p) by (change (t_id p1) with (t_id p); rewrite Pid; exact FPN).
        change (t_id p1) with (t_id p). destruct (N.eqb (t_id nx) (t_id p)) eqn:E; [apply N.eqb_eq in E; lia|].
        change (put_task nx' ?l) with (kput t_id nx' l). rewrite (kfind_put t_id nx' _ _ nx) by exact FN. change (t_id nx') with (t_id nx). now rewrite N.eqb_refl.
      * split; [intros _; repeat split|]. split; [exact Nc|]. revert Nw. apply wf_state.
    + unfold alpha. rewrite V1. unfold ts1. rewrite (put_view _ p p1 _ eq_refl eq_refl eq_refl eq_refl VP1).
      rewrite (put_view _ nx nx' (APe (weight nx))); try reflexivity.
      2:{ unfold vst. change (t_state nx') with TPending. cbn iota. f_equal. apply weight_cong; reflexivity. }
      rewrite (put_view ts u u1 AFi); try reflexivity.
      2:{ exact (vst_done t u c St Hc). }
      rewrite map_app. assert (T : map tok [MTask QUEUE_PENDING nx'] = [KP (r_id (view nx)) (weight nx)]).
      { cbn [map]. change (tok (MTask QUEUE_PENDING nx')) with (KP (t_id nx) (weight nx')). replace (weight nx') with (weight nx) by (apply weight_cong; reflexivity). reflexivity. }
      rewrite T. change (map tok (MTask QUEUE_COMPLETED t :: R)) with (KC (t_id t) :: map tok R). unfold k.
      apply (s_release (map view ts) (map jview js) (map tok R) (w_fresh w) (t_id t) (view u) (view p) (e_size x) (e_completions x) (e_concurrency x) (e_index x) (view nx) (weight nx)).
      * exact (c_rfind ts _ _ A).
      * exact Hp.
      * exact (c_rfind ts _ _ P).
      * exact VP.
      * exact Erl.
      * now apply in_map.
      * cbn. congruence.
      * cbn. unfold vst. rewrite N4. reflexivity.
  - set (ts1 := put_task p1 (put_task u1 ts)).
    set (w1 := w <| w_auto := [] |> <| w_tasks := told ++ ts1 |> <| w_jobs := jold ++ js1 |>).
    exists w1, ts1, js1, p1, last, []. split.
    { erewrite (run_with_tx_ok _ w w1 last); [reflexivity| |exact Hf]. unfold a_complete_each, abind.
      erewrite act_update_task; [|exact Hf|exact Hu|apply complete_modify_acc; exact Acc]. fold (done_row t u). fold u1.
      match goal with |- (let '(_, _) := a_bump_each _ ?ww in _) = _ => set (w2 := ww) | |- match a_bump_each _ ?ww with _ => _ end = _ => set (w2 := ww) end.
      assert (Ht2 : w_tasks w2 = told ++ put_task u1 ts) by exact TT.
      assert (EB : a_bump_each (t_parent t) w2 = (w2 <| w_tasks := told ++ ts1 |>, Ok last)).
      { unfold a_bump_each. rewrite faulty_no by exact Hf. rewrite Ep, (find_task_new w2 _ _ Ht2 Pi), FP, Xp. fold k. fold last. fold rl. rewrite Erl.
        unfold aret. fold p1. f_equal. apply world_eq; try reflexivity.
        change (put_task p1 (w_tasks w2) = told ++ ts1). rewrite Ht2. unfold ts1. rewrite put_task_new; [reflexivity|change (t_id p1) with (t_id p); lia]. }
      rewrite EB. rewrite HX; [|reflexivity|exact Hf]. unfold aret. f_equal. }
    split; [now rewrite app_nil_r|]. split; [reflexivity|].
    assert (F1 : kfind t_id (t_parent u) ts1 = Some p1).
    { unfold ts1. change (put_task p1 ?l) with (kput t_id p1 l). rewrite (kfind_put t_id p1 _ _ p) by (change (t_id p1) with (t_id p); rewrite Pid; exact FP).
      change (t_id p1) with (t_id p). now rewrite Pid, N.eqb_refl. }
    split; [exact F1|]. split; [|split; [reflexivity|]].
    { intros i. unfold ts1. rewrite (takes_same i (put_task u1 ts) p p1); [exact (takes_same i ts u u1 Hfu eq_refl Ut)|rewrite Pid; exact FP|reflexivity|].
      rewrite (plain_each p _ _ _ _ VP). exact (plain_each p1 _ _ _ _ VP1). }
    intros new.
    apply (ci_one _ R w ts js w1 ts1 js1 new HC); try reflexivity.
    + exact (ci_n _ _ _ _ HC).
    + exact Hf.
    + exact (ci_x _ _ _ _ HC).
    + unfold ts1. apply rows_put; [|exact Pok1]. apply rows_put; [exact (ci_rows _ _ _ _ HC)|exact Uok].
    + exact V3.
    + unfold ts1. apply (Rel_trans _ (put_task u1 ts)); [apply (Rel_put ts u u1); [now rewrite Hid|exact Urel]|]. apply (Rel_put _ p p1); [rewrite Pid; exact FP|exact Prel].
    + exact V2.
    + unfold new. destruct last; [|apply Forall_nil]. apply Forall_cons; [|apply Forall_nil]. exists p1. split; [|split; [left; reflexivity|change (t_state p1) with (t_state p); unfold before; change (t_state p1) with (t_state p); rewrite Sp; split; [intros [B|B]; discriminate B|split; intros B; discriminate B]]].
      split; [|split; reflexivity]. change (t_id (p1 <| t_state := TCompleted |> <| t_completed := Some (w_clock w1) |>)) with (t_id p). rewrite Pid. exact F1.
    + unfold alpha. rewrite V1. unfold ts1. rewrite (put_view _ p p1 _ eq_refl eq_refl eq_refl eq_refl VP1).
      rewrite (put_view ts u u1 AFi); try reflexivity.
      2:{ exact (vst_done t u c St Hc). }
      rewrite map_app. assert (T : map tok new = if e_size x <=? k then [KC (t_parent u)] else []).
      { unfold new. fold last. destruct last; [|reflexivity]. cbn [map]. change (tok (MTask QUEUE_COMPLETED ?z)) with (KC (t_id z)). cbn [map]. rewrite <- Pid. reflexivity. }
      rewrite T. change (map tok (MTask QUEUE_COMPLETED t :: R)) with (KC (t_id t) :: map tok R). unfold k.
      apply (s_item (map view ts) (map jview js) (map tok R) (w_fresh w) (t_id t) (view u) (view p) (e_size x) (e_completions x) (e_concurrency x) (e_index x)).
      * exact (c_rfind ts _ _ A).
      * exact Hp.
      * exact (c_rfind ts _ _ P).
      * exact VP.
      * exact Erl.
Qed.
Lemma top_facts w R ts js t u j : CI w (MTask QUEUE_COMPLETED t :: R) ts js -> kfind t_id (t_id t) ts = Some u -> t_parent u = 0%N -> vst u <> AFi -> kfind j_id (t_job u) js = Some j ->
  jst (j_state j) = QLi /\ 1 <= j_position j <= Z.of_nat (length (j_tasks j)).
Proof.
  intros HC A Hp Nf J. pose proof (proj1 (kfind_some t_id _ _ _ A)) as Hin. destruct (proj2 (ai_top _ (ci_ai _ _ _ _ HC) (view u) (in_map view _ _ Hin) Hp) Nf) as (q & Q1 & Q2 & Q3 & Q4).
  cbn in Q1. apply qfind_view in Q1 as (j0 & J0 & ->). rewrite J in J0. injection J0 as <-. cbn in Q2, Q4. rewrite map_length in Q4. auto.
Qed.
Lemma jst_live s : jst s = QLi -> s = JScheduled \/ s = JRunning.
Proof. destruct s; cbn; auto; discriminate. Qed.
Lemma comp_top w R ts js t c : CI w (MTask QUEUE_COMPLETED t :: R) ts js -> t_completed t = Some c -> t_parent t = 0%N ->
  exists w', run (complete_top O t) w = (w', Ok tt) /\ goes (MTask QUEUE_COMPLETED t) R w ts js w'.
Proof.
  intros HC Hc Hp0. destruct (comp_facts _ _ _ _ _ HC) as (u & j & A & Acc & St & Ej & Ep & J1 & J2 & Ncr & Nf).
  assert (Hp : t_parent u = 0%N) by congruence.
  destruct (c_row _ _ _ _ HC _ _ A) as (Hi & Hlt & Hid & Hu & Hok & Hin). destruct (c_job _ _ _ _ HC _ _ J1) as (Ji & Jlt & Jid & Hj & Hjok & Jin). pose proof (ci_f _ _ _ _ HC) as Hf.
  destruct (top_facts w R ts js t u j HC A Hp Nf ltac:(rewrite <- Ej; exact J1)) as (Jl & Jpos). apply jst_live in Jl.
  destruct Hjok as (O1 & O2 & O3 & O4 & O5 & O6 & O7).
  set (u1 := done_row t u). pose proof (comp_skip _ _ _ _ _ _ HC A) as Sk. destruct (done_ok t u St Sk ltac:(lia)) as (Uok & Urel). fold u1 in Uok, Urel.
  set (j1 := adv t j).
  assert (Hc0 : j_taskcount j <> 0) by (rewrite O5; lia).
  set (w1 := w <| w_auto := [] |> <| w_tasks := put_task u1 (w_tasks w) |> <| w_jobs := put_job j1 (w_jobs w) |>).
  assert (Etx : run (with_tx (a_complete_top t)) w = (w1, Ok tt)) by exact (tx_complete_top t w u j Hf Hu Acc Hj Hc0).
  assert (Hj1 : find_job (t_job t) w1 = Some j1).
  { rewrite <- Jid in Hj |- *. apply (put_job_effect w w1 j j1); auto. }
  assert (T1 : w_tasks w1 = told ++ put_task u1 ts) by (change (w_tasks w1) with (put_task u1 (w_tasks w)); rewrite (ci_t _ _ _ _ HC); apply put_task_new; change (t_id u1) with (t_id u); lia).
  assert (B1 : w_jobs w1 = jold ++ put_job j1 js) by (change (w_jobs w1) with (put_job j1 (w_jobs w)); rewrite (ci_j _ _ _ _ HC); apply put_job_new; change (j_id j1) with (j_id j); lia).
  assert (Jok1 : jobok j1) by (repeat (split; [assumption|]); assumption).
  assert (Vu : map view (put_task u1 ts) = rput (setst (view u) AFi) (map view ts)) by (apply put_view; try reflexivity; exact (vst_done t u c St Hc)).
  assert (Ru : Rel ts (put_task u1 ts)) by (apply (Rel_put ts u u1); [now rewrite Hid|exact Urel]).
  assert (Kt : forall i, takes i (put_task u1 ts) = takes i ts) by (intros i; apply (takes_same i ts u u1); [now rewrite Hid|reflexivity|exact (taken_done t u St Acc (proj2 Sk))]).
  assert (Fj : kfind j_id (j_id j) js = Some j) by (rewrite Jid; exact J1).
  assert (Hb1 : ids_below w1) by (intros y Hy; change (w_fresh w1) with (w_fresh w); apply (in_map t_id) in Hy; change (w_tasks w1) with (put_task u1 (w_tasks w)) in Hy; rewrite map_id_put_task in Hy; apply in_map_iff in Hy as (z & <- & Hz); now apply (c_below _ _ _ _ HC)).
  unfold complete_top. rewrite run_bind, Etx, run_bind, run_get_job by exact Hf. rewrite Hj1, run_bind, run_now.
  change (j_position j1) with (j_position j + 1). change (j_tasks j1) with (j_tasks j).
  destruct (j_position j + 1 <=? Z.of_nat (length (j_tasks j))) eqn:Eq.
  - (* the next task *)
    apply Z.leb_le in Eq. unfold nth_task. destruct (j_position j + 1 - 1 <? 0) eqn:E0; [apply Z.ltb_lt in E0; lia|].
    replace (j_position j + 1 - 1) with (j_position j) by lia.
    destruct (nth_error (j_tasks j) (Z.to_nat (j_position j))) as [def|] eqn:En; [|apply nth_error_None in En; lia].
    pose proof (nth_error_In _ _ En) as Hd. rewrite Forall_forall in O3, O4. pose proof (O3 _ Hd) as Pd. pose proof (O4 _ Hd) as Wd.
    destruct (task_eval O (j_context j1) None def Wd) as (d & Ed & Wd' & Wt).
    rewrite run_bind, run_new_id. change (w_fresh w1) with (w_fresh w). rewrite (instantiate_any O j1 def (j_position j + 1) (w_fresh w) (w_clock w1) d Ed).
    assert (Hnp : t_parent def = noid) by (apply pristine_eq in Pd; tauto). rewrite Hnp.
    set (nx := identity (w_fresh w) (j_id j1) noid TPending (j_position j + 1) (Some (w_clock w1)) d).
    set (w2 := w1 <| w_fresh := N.succ (w_fresh w) |>).
    rewrite run_bind. erewrite run_create_task; [|exact Hf| |].
    2:{ exact (fresh_not_found w1 Hb1). }
    2:{ assert (Hj1' : find_job (j_id j) w1 = Some j1) by (rewrite Jid; exact Hj1). exact Hj1'. }
    unfold publish_task. rewrite run_publish by exact Hf. eexists. split; [reflexivity|].
    assert (Cn : clean nx) by (apply clean_identity, pristine_clean; eapply eval_pristine; [exact Pd|exact Ed]).
    assert (Wn : well_formed O nx) by (apply wf_identity; exact Wd').
    assert (Ww : weight nx = weight def) by (unfold nx; rewrite weight_identity; exact Wt).
    apply (goes_one _ R w ts js _ (put_task u1 ts ++ [db_task nx]) (put_job j1 js) [MTask QUEUE_PENDING nx] HC); try reflexivity.
    + change (w_tasks w1 ++ [db_task nx] = told ++ put_task u1 ts ++ [db_task nx]). now rewrite T1, app_assoc.
    + exact B1.
    + exact (ci_n _ _ _ _ HC).
    + exact Hf.
    + change (i0 <= N.succ (w_fresh w))%N. pose proof (ci_x _ _ _ _ HC). lia.
    + apply Forall_app. split; [apply rows_put; [exact (ci_rows _ _ _ _ HC)|exact Uok]|]. apply Forall_cons; [|apply Forall_nil].
      split; [change (t_id (db_task nx)) with (w_fresh w); exact (ci_x _ _ _ _ HC)|]. intros _. split; [exact Cn|apply wf_db; exact Wn].
    + apply jobs_put; [exact (ci_jobs _ _ _ _ HC)|exact Jok1].
    + eapply Rel_trans; [exact Ru|apply Rel_app].
    + apply (JRel_put js j j1); [exact Fj|reflexivity|]. intros E. contradiction.
    + apply Forall_cons; [|apply Forall_nil]. exists (db_task nx). split.
      * split; [|split; reflexivity]. change (t_id nx) with (w_fresh w). rewrite kfind_app.
        destruct (kfind t_id (w_fresh w) (put_task u1 ts)) as [y|] eqn:Fy.
        -- exfalso. apply kfind_some in Fy as [Fy Fi]. assert (Iy : In y (w_tasks w1)) by (rewrite T1; apply in_or_app; right; exact Fy). apply Hb1 in Iy. change (w_fresh w1) with (w_fresh w) in Iy. lia.
        -- unfold kfind. cbn [find]. change (t_id (db_task nx)) with (w_fresh w). now rewrite N.eqb_refl.
      * split; [intros _; repeat split|]. split; [exact Cn|exact Wn].
    + unfold alpha. rewrite map_app, Vu, map_put_jview. cbn [map]. 
      assert (V : view (db_task nx) = mkRow (w_fresh w) (r_job (view u)) 0%N (q_pos (jview j) + 1) (APe (weight def))).
      { unfold view. change (t_id (db_task nx)) with (w_fresh w). change (t_job (db_task nx)) with (j_id j). change (t_parent (db_task nx)) with noid. change (t_position (db_task nx)) with (j_position j + 1).
        unfold vst. change (t_state (db_task nx)) with TPending. cbn iota. rewrite weight_db, Ww. cbn [r_job q_pos jview]. rewrite Jid, Ej. reflexivity. }
      rewrite V. change (jview j1) with (setq (jview j) (q_pos (jview j) + 1) (q_st (jview j))).
      assert (T : tok (MTask QUEUE_PENDING nx) = KP (w_fresh w) (weight def)) by (change (tok (MTask QUEUE_PENDING nx)) with (KP (w_fresh w) (weight nx)); now rewrite Ww).
      change (map tok ([MTask QUEUE_PENDING nx] ++ R)) with ([tok (MTask QUEUE_PENDING nx)] ++ map tok R). rewrite T.
      change (tok (MTask QUEUE_COMPLETED t)) with (KC (t_id t)).
      apply (s_next (map view ts) (map jview js) (map tok R) (w_fresh w) (t_id t) (view u) (jview j) (weight def)).
      * exact (c_rfind ts _ _ A).
      * exact Hp.
      * cbn [r_job view]. rewrite <- Ej. exact (c_qfind js _ _ J1).
      * cbn [q_hs q_pos jview]. now apply map_nth_error.
    + intros i. rewrite (given_one i QUEUE_PENDING nx eq_refl), takes_app by (apply Forall_cons; [right; reflexivity|apply Forall_nil]). symmetry. apply Kt.
  - (* the last one *)
    apply Z.leb_gt in Eq. unfold job_handler. change (j_state (j1 <| j_state := JCompleted |> <| j_completed := Some (w_clock w1) |>)) with JCompleted. cbn iota.
    set (jc := j1 <| j_state := JCompleted |> <| j_completed := Some (w_clock w1) |>).
    destruct (complete_modify_finished O jc (w_clock w1) j1 Jl eq_refl eq_refl eq_refl eq_refl) as (jx & Em & X1 & X2 & X3).
    destruct (O6 (j_context j1)) as (r & Er). assert (Eo : output_of O j1 = inl r) by exact Er. rewrite Eo in X3. destruct X3 as (X3 & X4).
    set (jf := finished_row O j1 (w_clock w1)) in *.
    assert (Fs : j_state jf = JCompleted) by (unfold jf, finished_row; rewrite Eo; reflexivity).
    assert (Fi : j_id jf = j_id j) by (unfold jf, finished_row; rewrite Eo; reflexivity).
    assert (Fv : jview jf = setq (jview j) (q_pos (jview j) + 1) QCo) by (unfold jf, finished_row; rewrite Eo; reflexivity).
    assert (Fo : jobok jf) by (unfold jf, finished_row; rewrite Eo; repeat (split; [assumption|]); assumption).
    unfold complete_job. rewrite run_bind, run_now, run_bind.
    change (j_id jc) with (j_id j). erewrite run_update_job; [|exact Hf|rewrite Jid; exact Hj1|exact Em]. fold jf.
    set (w2 := w1 <| w_jobs := put_job jf (w_jobs w1) |>).
    assert (B2 : w_jobs w2 = jold ++ put_job jf (put_job j1 js)) by (change (w_jobs w2) with (put_job jf (w_jobs w1)); rewrite B1; apply put_job_new; rewrite Fi; lia).
    assert (Fj1 : kfind j_id (j_id jf) (put_job j1 js) = Some j1).
    { change (put_job j1 js) with (kput j_id j1 js). rewrite (kfind_put j_id j1 js _ j) by exact Fj. change (j_id j1) with (j_id j). now rewrite Fi, N.eqb_refl. }
    assert (PP : put_job jf (put_job j1 js) = put_job jf js).
    { unfold put_job. rewrite map_map. apply map_ext. intros y. rewrite Fi. change (j_id j1) with (j_id j). destruct (N.eqb (j_id y) (j_id j)) eqn:E; [change (j_id j1) with (j_id j); now rewrite N.eqb_refl|now rewrite E]. }
    assert (Fin : forall m w', msgok (put_task u1 ts) (put_job jf js) m -> tok m = (if N.eqb (j_parent j) 0 then KO 0 else KC (j_parent j)) -> (forall i, gives i m = false) ->
      w' = w2 <| w_hist := w_hist w2 ++ [m] |> -> goes (MTask QUEUE_COMPLETED t) R w ts js w').
    { intros m w' Mk Tk Gm ->. apply (goes_one _ R w ts js _ (put_task u1 ts) (put_job jf js) [m] HC); try reflexivity.
      - exact T1.
      - rewrite <- PP. exact B2.
      - exact (ci_n _ _ _ _ HC).
      - exact Hf.
      - exact (ci_x _ _ _ _ HC).
      - apply rows_put; [exact (ci_rows _ _ _ _ HC)|exact Uok].
      - apply jobs_put; [exact (ci_jobs _ _ _ _ HC)|exact Fo].
      - exact Ru.
      - apply (JRel_put js j jf); [exact Fj|exact Fi|]. intros E. rewrite Fs in E. discriminate.
      - apply Forall_cons; [exact Mk|apply Forall_nil].
      - unfold alpha. rewrite Vu, map_put_jview, Fv. change (map tok ([m] ++ R)) with ([tok m] ++ map tok R). rewrite Tk.
        change (map tok (MTask QUEUE_COMPLETED t :: R)) with (KC (t_id t) :: map tok R).
        apply (s_end (map view ts) (map jview js) (map tok R) (w_fresh w) (t_id t) (view u) (jview j)).
        + exact (c_rfind ts _ _ A).
        + exact Hp.
        + cbn [r_job view]. rewrite <- Ej. exact (c_qfind js _ _ J1).
        + cbn [q_hs q_pos jview]. rewrite map_length. lia.
      - intros i. rewrite given_none by (apply Forall_cons; [exact (Gm i)|apply Forall_nil]). symmetry. apply Kt. }
    change (j_parent jc) with (j_parent j). unfold has_id, is_noid. destruct (N.eqb (j_parent j) 0) eqn:Epar; cbn [negb].
    + rewrite X3. change (jstate_eqb JCompleted JFailed) with false. cbn iota. unfold publish_event. rewrite run_publish by exact Hf. eexists. split; [reflexivity|].
      apply (Fin (MEvent TOPIC_JOB_COMPLETED jx)); [exact I|reflexivity|reflexivity|reflexivity].
    + apply N.eqb_neq in Epar.
      destruct (ai_jpar _ (ci_ai _ _ _ _ HC) (jview j) (in_map jview _ _ Jin) Epar) as (pr & P1 & P2).
      { cbn. destruct Jl as [-> | ->]; discriminate. }
      cbn in P1. apply rfind_view in P1 as (p & P1 & ->). destruct (c_row _ _ _ _ HC _ _ P1) as (Pi & Plt & Pid & Pu & Pok & Pin).
      assert (Pu2 : exists p2, kfind t_id (j_parent j) (put_task u1 ts) = Some p2 /\ t_job p2 = t_job p /\ t_parent p2 = t_parent p /\ t_id p2 = t_id p /\ ~ before p2 /\ t_state p2 <> TSkipped).
      { destruct (Ru _ _ P1) as (p2 & F2 & R1 & R2 & R3 & R4 & R5). exists p2. assert (Sp : t_state p = TRunning).
        { cbn in P2. unfold vst in P2. destruct (t_state p); try discriminate P2; [destruct (t_parallel p), (t_each p), (t_subjob p); discriminate P2|reflexivity|destruct (t_completed p); discriminate P2]. }
        assert (Nb : ~ before p) by (intros [B|B]; rewrite Sp in B; discriminate B).
        split; [exact F2|]. split; [exact R2|]. split; [exact R3|]. split; [exact R1|]. split; [intros B; apply Nb; exact (proj1 (R4 B))|]. rewrite (R5 Nb), Sp. discriminate. }
      destruct Pu2 as (p2 & F2 & P3 & P4 & P5 & P6 & P7).
      assert (Fp2 : find_task (j_parent j) w2 = Some p2) by (rewrite (find_task_new w2 _ _ T1 Pi); exact F2).
      rewrite run_bind, run_get_task by exact Hf. rewrite Fp2, run_bind, run_now, X3. change (jstate_eqb JCompleted JFailed) with false. cbn iota.
      unfold publish_task. rewrite run_publish by exact Hf. eexists. split; [reflexivity|].
      apply (Fin (MTask QUEUE_COMPLETED (p2 <| t_state := TCompleted |> <| t_completed := Some (w_clock w2) |> <| t_result := j_result jx |>))); [| |reflexivity|reflexivity].
      * exists p2. split; [|split; [left; reflexivity|split; [exact P6|split; intros B; [contradiction|discriminate B]]]]. split; [|split; reflexivity]. change (t_id (p2 <| t_state := TCompleted |> <| t_completed := Some (w_clock w2) |> <| t_result := j_result jx |>)) with (t_id p2). rewrite P5, Pid. exact F2.
      * change (KC (t_id p2) = KC (j_parent j)). now rewrite P5, Pid.
Qed.
Lemma complete_all fuel : forall w R ts js t c, CI w (MTask QUEUE_COMPLETED t :: R) ts js -> t_completed t = Some c -> (N.to_nat (t_id t) <= fuel)%nat ->
  exists w', run (complete_task O fuel t) w = (w', Ok tt) /\ goes (MTask QUEUE_COMPLETED t) R w ts js w'.
Proof.
  induction fuel as [|fuel IH]; intros w R ts js t c HC Hc Hfu.
  - exfalso. destruct (comp_facts _ _ _ _ _ HC) as (u & j & A & _). destruct (c_row _ _ _ _ HC _ _ A) as (Hi & _). lia.
  - destruct (comp_facts _ _ _ _ _ HC) as (u & j & A & Acc & St & Ej & Ep & J1 & J2 & Ncr & Nf). pose proof (ci_f _ _ _ _ HC) as Hf.
    destruct (N.eqb (t_parent t) noid) eqn:Et.
    + apply N.eqb_eq in Et. cbn [complete_task]. unfold has_id, is_noid. rewrite Et. change (N.eqb noid noid) with true. cbn [negb]. exact (comp_top w R ts js t c HC Hc Et).
    + cbn [complete_task]. unfold has_id, is_noid. change (N.eqb (t_parent t) 0) with (N.eqb (t_parent t) noid). rewrite Et. cbn [negb]. apply N.eqb_neq in Et.
      assert (Hp : t_parent u <> 0%N) by (rewrite <- Ep; exact Et).
      destruct (parent_facts _ _ _ _ _ _ HC A Hp Nf) as (p & P & Pj & Plt & Pfan). destruct (c_row _ _ _ _ HC _ _ P) as (Pi & _ & Pid & Pu & _).
      pose proof (proj2 (kfind_some t_id _ _ _ A)) as Hid.
      rewrite run_bind, run_get_task by exact Hf. rewrite Ep, Pu. rewrite run_bind.
      destruct (vst p) as [| | | | | |n k|n k kc ix| |] eqn:Vp; try discriminate.
      * apply vst_fan_par in Vp as (Sp & x & Xp & -> & ->). rewrite Xp.
        destruct (comp_parallel w R ts js t u p x c HC Hc A Hp P Sp Xp) as (w1 & ts1 & js1 & p1 & last & E1 & E2 & E3 & E4 & Kt & C1 & S1). rewrite E1.
        pose proof (ci_f _ _ _ _ C1) as Hf1. destruct last.
        -- destruct (c_row _ _ _ _ C1 _ _ E4) as (_ & _ & Pid1 & Pu1 & _). rewrite run_bind, run_get_task by exact Hf1. rewrite Pu1, run_bind, run_now.
           destruct (IH w1 R ts1 js1 (p1 <| t_state := TCompleted |> <| t_completed := Some (w_clock w1) |>) (w_clock w1) C1 eq_refl) as (w' & Er & G).
           { change (t_id (p1 <| t_state := TCompleted |> <| t_completed := Some (w_clock w1) |>)) with (t_id p1). lia. }
           exists w'. split; [exact Er|]. exact (goes_via _ _ R w ts js w1 ts1 js1 w' E2 S1 Kt G).
        -- exists w1. split; [reflexivity|]. exists ts1, js1, []. split; [now rewrite app_nil_r|]. split; [exact C1|]. split; [exact S1|]. intros i. symmetry. exact (Kt i).
      * apply vst_fan_each in Vp as (Sp & Np & x & Xp & -> & -> & -> & ->). rewrite Np.
        destruct (comp_each w R ts js t u p x c HC Hc A Hp P Sp Np Xp) as (w1 & ts1 & js1 & p1 & last & rl & E1 & E2 & E3 & E4 & Kt & Kg & C1 & S1). rewrite E1.
        pose proof (ci_f _ _ _ _ C1) as Hf1. destruct last.
        -- rewrite (E3 eq_refl), app_nil_r in E2. destruct (c_row _ _ _ _ C1 _ _ E4) as (_ & _ & Pid1 & Pu1 & _). rewrite run_bind, run_get_task by exact Hf1. rewrite Pu1, run_bind, run_now.
           destruct (IH w1 R ts1 js1 (p1 <| t_state := TCompleted |> <| t_completed := Some (w_clock w1) |>) (w_clock w1) C1 eq_refl) as (w' & Er & G).
           { change (t_id (p1 <| t_state := TCompleted |> <| t_completed := Some (w_clock w1) |>)) with (t_id p1). lia. }
           exists w'. split; [exact Er|]. exact (goes_via _ _ R w ts js w1 ts1 js1 w' E2 S1 Kt G).
        -- exists w1. split; [reflexivity|]. exists ts1, js1, rl. split; [exact E2|]. split; [exact C1|]. split; [exact S1|]. intros i. rewrite Kg. symmetry. exact (Kt i).
Qed.
(** changing what the picture does not show of the message *)
Lemma goes_msg m m' R w ts js w' : tok m = tok m' -> goes m R w ts js w' -> goes m' R w ts js w'.
Proof. intros E (ts' & js' & new & A & B & C & D). exists ts', js', new. split; [exact A|]. split; [exact B|]. split; [|exact D]. unfold alpha in *. cbn [map] in *. rewrite <- E. exact C. Qed.
Lemma completed_all fuel w R ts js t : CI w (MTask QUEUE_COMPLETED t :: R) ts js -> (N.to_nat (t_id t) <= fuel)%nat ->
  exists w', run (completed_handler O fuel t) w = (w', Ok tt) /\ goes (MTask QUEUE_COMPLETED t) R w ts js w'.
Proof.
  intros HC Hfu. destruct (comp_facts _ _ _ _ _ HC) as (u & j & A & Acc & St & Ej & Ep & J1 & J2 & Ncr & Nf).
  pose proof (comp_skip _ _ _ _ _ _ HC A) as Sk.
  set (t1 := t <| t_completed := Some (w_clock w) |>).
  assert (HC1 : CI w (MTask QUEUE_COMPLETED t1 :: R) ts js).
  { destruct HC as [H1 H2 H3 H4 H5 H6 H7 H8 H9]. split; try assumption. inversion H8; subst. apply Forall_cons; [|assumption]. exists u. split; [|split; [exact St|exact Sk]]. split; [exact A|]. split; assumption. }
  destruct (complete_all fuel w R ts js t1 (w_clock w) HC1 eq_refl Hfu) as (w' & Er & G). exists w'. split; [|exact (goes_msg (MTask QUEUE_COMPLETED t1) _ R w ts js w' eq_refl G)].
  unfold completed_handler. rewrite run_bind, run_now.
  replace (match t_state t with TCompleted | TSkipped => with_msg (t <| t_completed := Some (w_clock w) |>) (complete_task O fuel (t <| t_completed := Some (w_clock w) |>)) | _ => fail "invalid completion state" end)
    with (with_msg t1 (complete_task O fuel t1)) by (destruct St as [E|E]; rewrite E; reflexivity).
  rewrite run_with_msg, Er. reflexivity.
Qed.
(** ** The other messages *)
Lemma start_all w R ts js j : CI w (MJob j :: R) ts js -> exists w', run (job_handler O j) w = (w', Ok tt) /\ goes (MJob j) R w ts js w'.
Proof.
  intros HC. pose proof (ci_msgs _ _ _ _ HC) as HM. inversion HM as [|? ? M _]; subst. destruct M as (Js & r & J1 & J2).
  destruct (ai_kj _ (ci_ai _ _ _ _ HC) (j_id j) (map weight (j_tasks j))) as (q & Q1 & Q2 & Q3); [left; reflexivity|]. cbn in Q1. apply qfind_view in Q1 as (r0 & R0 & ->).
  rewrite J1 in R0. injection R0 as <-. assert (Er : j_state r = JPending) by (cbn in Q2; destruct (j_state r); try discriminate; reflexivity). apply J2 in Er. subst r. clear J2 Q2 Q3.
  destruct (c_job _ _ _ _ HC _ _ J1) as (Ji & Jlt & _ & Hj & Hjok & Jin). pose proof (ci_f _ _ _ _ HC) as Hf. destruct Hjok as (O1 & O2 & O3 & O4 & O5 & O6 & O7).
  unfold job_handler. rewrite Js. unfold start_job. destruct (j_tasks j) as [|def l] eqn:Ejt; [contradiction O2; reflexivity|].
  rewrite Forall_forall in O3, O4. pose proof (O3 def (or_introl eq_refl)) as Pd. pose proof (O4 def (or_introl eq_refl)) as Wd.
  destruct (task_eval O (j_context j) None def Wd) as (d & Ed & Wd' & Wt).
  rewrite run_bind, run_now, run_bind, run_new_id. rewrite (instantiate_any O j def 1 (w_fresh w) (w_clock w) d Ed).
  assert (Hnp : t_parent def = noid) by (apply pristine_eq in Pd; tauto). rewrite Hnp.
  set (nx := identity (w_fresh w) (j_id j) noid TPending 1 (Some (w_clock w)) d).
  assert (Hb1 := c_below _ _ _ _ HC).
  rewrite run_bind. erewrite run_create_task; [|exact Hf|exact (fresh_not_found w Hb1)|exact Hj].
  rewrite run_bind, run_now, run_bind. erewrite run_update_job; [|exact Hf|exact Hj|reflexivity].
  change (tstate_eqb (t_state nx) TFailed) with false. cbn iota.
  match goal with |- context [put_job ?x _] => set (j1 := x) end. match goal with |- exists w', run _ ?ww = _ /\ _ => set (w1 := ww) end.
  assert (Cn : clean nx) by (apply clean_identity, pristine_clean; eapply eval_pristine; [exact Pd|exact Ed]).
  assert (Wn : well_formed O nx) by (apply wf_identity; exact Wd').
  assert (Ww : weight nx = weight def) by (unfold nx; rewrite weight_identity; exact Wt).
  assert (H1 : CI w1 ([MTask QUEUE_PENDING nx] ++ R) (ts ++ [db_task nx]) (put_job j1 js) /\
               asteps (alpha w ts js (MJob j :: R)) (alpha w1 (ts ++ [db_task nx]) (put_job j1 js) ([MTask QUEUE_PENDING nx] ++ R))).
  { apply ci_one; try assumption.
    - change (w_tasks w ++ [db_task nx] = told ++ ts ++ [db_task nx]). now rewrite (ci_t _ _ _ _ HC), app_assoc.
    - change (put_job j1 (w_jobs w) = jold ++ put_job j1 js). rewrite (ci_j _ _ _ _ HC). apply put_job_new. exact Ji.
    - exact (ci_n _ _ _ _ HC).
    - change (i0 <= N.succ (w_fresh w))%N. pose proof (ci_x _ _ _ _ HC). lia.
    - apply Forall_app. split; [exact (ci_rows _ _ _ _ HC)|]. apply Forall_cons; [|apply Forall_nil].
      split; [change (t_id (db_task nx)) with (w_fresh w); exact (ci_x _ _ _ _ HC)|]. intros _. split; [exact Cn|apply wf_db; exact Wn].
    - apply jobs_put; [exact (ci_jobs _ _ _ _ HC)|]. split; [exact Ji|]. change (j_tasks j1) with (j_tasks j). rewrite Ejt. split; [discriminate|]. split; [now apply Forall_forall|]. split; [now apply Forall_forall|]. split; [exact O5|split; [exact O6|exact O7]].
    - apply Rel_app.
    - apply (JRel_put js j j1); [exact J1|reflexivity|]. intros E. discriminate E.
    - apply Forall_cons; [|apply Forall_nil]. exists (db_task nx). split.
      + split; [|split; reflexivity]. change (t_id nx) with (w_fresh w). rewrite kfind_app.
        destruct (kfind t_id (w_fresh w) ts) as [y|] eqn:Fy.
        * exfalso. destruct (c_row _ _ _ _ HC _ _ Fy) as (_ & L & _). lia.
        * unfold kfind. cbn [find]. change (t_id (db_task nx)) with (w_fresh w). now rewrite N.eqb_refl.
      + split; [intros _; repeat split|]. split; [exact Cn|exact Wn].
    - unfold alpha. rewrite map_app, map_put_jview. cbn [map app].
      assert (V : view (db_task nx) = mkRow (w_fresh w) (j_id j) 0%N 1 (APe (weight def))).
      { unfold view. change (t_id (db_task nx)) with (w_fresh w). change (t_job (db_task nx)) with (j_id j). change (t_parent (db_task nx)) with noid. change (t_position (db_task nx)) with 1.
        unfold vst. change (t_state (db_task nx)) with TPending. cbn iota. rewrite weight_db, Ww. reflexivity. }
      rewrite V. change (jview j1) with (setq (jview j) 1 QLi).
      assert (T : tok (MTask QUEUE_PENDING nx) = KP (w_fresh w) (weight def)) by (change (tok (MTask QUEUE_PENDING nx)) with (KP (w_fresh w) (weight nx)); now rewrite Ww).
      rewrite T. change (tok (MJob j)) with (KJ (j_id j) (map weight (j_tasks j))). rewrite Ejt. cbn [map].
      apply (s_start (map view ts) (map jview js) (map tok R) (w_fresh w) (j_id j) (weight def) (map weight l) (jview j)).
      + exact (c_qfind js _ _ J1).
      + cbn [q_hs jview]. rewrite Ejt. reflexivity. }
  destruct H1 as (C1 & S1). destruct (pend_all w1 R _ _ nx C1) as (w' & Er & G). exists w'. split; [exact Er|]. refine (goes_via _ _ R w ts js w1 _ _ w' _ S1 _ G); [reflexivity|].
  intros i. apply takes_app. apply Forall_cons; [right; reflexivity|apply Forall_nil].
Qed.
Lemma wf_node s t : well_formed O t -> well_formed O (t <| t_node := s |>).
Proof. destruct t. intros H. exact H. Qed.
Lemma private_facts t u q : String.prefix QUEUE_EXCLUSIVE_PREFIX q = true -> mtaskok q t u /\ tok (MTask q t) = KO 0.
Proof.
  intros H. assert (N : forall s, String.prefix QUEUE_EXCLUSIVE_PREFIX s = false -> String.eqb q s = false).
  { intros s E. apply String.eqb_neq. intros ->. rewrite H in E. discriminate E. }
  unfold mtaskok, tok. rewrite (N QUEUE_PENDING), (N QUEUE_COMPLETED), (N QUEUE_STARTED) by reflexivity.
  assert (E : is_task_queue q = false) by (unfold is_task_queue; rewrite H; apply andb_false_r). rewrite E. split; [exact H|reflexivity].
Qed.
(** a message that only changes what the picture does not show *)
Lemma goes_still m l R w ts js w' ts' js' new : CI w (m :: R) ts js -> tok m = KO l ->
  w_hist w' = w_hist w ++ new -> w_tasks w' = told ++ ts' -> w_jobs w' = jold ++ js' -> w_nodes w' = w_nodes w -> w_faults w' = [] -> w_fresh w' = w_fresh w ->
  Forall rowok ts' -> Forall jobok js' -> Rel ts ts' -> JRel js js' -> Forall (msgok ts' js') new ->
  map view ts' = map view ts -> map jview js' = map jview js -> Forall (fun k => exists l', k = KO l' /\ (l' < l)%nat) (map tok new) -> (forall i, takes i ts' = takes i ts) ->
  goes m R w ts js w'.
Proof.
  intros HC Tm H1 H2 H3 H4 H5 H6 H7 H8 H9 H10 H11 V1 V2 Hk Kt. apply (goes_one m R w ts js w' ts' js' new HC H1 H2 H3); try assumption.
  - rewrite H4. exact (ci_n _ _ _ _ HC).
  - rewrite H6. exact (ci_x _ _ _ _ HC).
  - unfold alpha. rewrite V1, V2, H6, map_app. cbn [map]. rewrite Tm. apply s_other. exact Hk.
  - intros i. rewrite Kt, given_none; [reflexivity|]. apply Forall_forall. intros y Hy. rewrite Forall_forall in Hk. destruct (Hk (tok y) (in_map tok _ _ Hy)) as (l' & E & _).
    destruct y as [q y| | | |]; try reflexivity. cbn. revert E. unfold tok. destruct (String.eqb q QUEUE_PENDING) eqn:E1; [apply String.eqb_eq in E1; subst q; reflexivity|].
    destruct (String.eqb q QUEUE_COMPLETED) eqn:E2; [discriminate|]. destruct (is_task_queue q); [discriminate|reflexivity].
Qed.
Lemma put_view_same ts u u' : NoDup (map t_id ts) -> kfind t_id (t_id u) ts = Some u -> view u' = view u -> map view (put_task u' ts) = map view ts.
Proof. intros Hn Hu E. rewrite map_put_view, E. exact (rput_same ts u Hn Hu). Qed.
Lemma put_jview_same js u u' : NoDup (map j_id js) -> kfind j_id (j_id u) js = Some u -> jview u' = jview u -> map jview (put_job u' js) = map jview js.
Proof. intros Hn Hu E. rewrite map_put_jview, E. exact (qput_same js u Hn Hu). Qed.
Lemma lively_good js T u : lively (map jview js) T (view u) -> vst u <> ABad.
Proof. unfold lively. cbn. intros H E. rewrite E in H. exact H. Qed.
Lemma rowok_same u u' : t_id u' = t_id u -> (before u' -> before u /\ clean u' /\ well_formed O u') -> rowok u -> rowok u'.
Proof. intros E H (A & B). split; [rewrite E; exact A|]. intros Hb. destruct (H Hb) as (_ & C). exact C. Qed.
Lemma view_node u s : view (u <| t_node := s |>) = view u.
Proof. destruct u. reflexivity. Qed.
Lemma view_started u c s : t_state u = TScheduled -> vst u <> ABad -> view (u <| t_state := TRunning |> <| t_started := c |> <| t_node := s |>) = view u.
Proof. unfold view, vst. destruct u. cbn. intros -> G. destruct t_parallel, t_each, t_subjob; try (contradiction G; reflexivity). reflexivity. Qed.
Lemma started_all w R ts js t : CI w (MTask QUEUE_STARTED t :: R) ts js -> exists w', run (started_handler O t) w = (w', Ok tt) /\ goes (MTask QUEUE_STARTED t) R w ts js w'.
Proof.
  intros HC. pose proof (ci_msgs _ _ _ _ HC) as HM. inversion HM as [|? ? M _]; subst. destruct M as (u & (A & Ej & Ep) & (nd & Nd)).
  pose proof (ci_f _ _ _ _ HC) as Hf. destruct (c_own _ _ _ _ HC _ _ A) as (j & J1 & J2). rewrite <- Ej in J1. destruct (c_job _ _ _ _ HC _ _ J1) as (Ji & Jlt & Jid & Hj & Hjok & Jin).
  destruct (c_row _ _ _ _ HC _ _ A) as (Ui & Ult & Uid & Hu & Uok & Uin). unfold started_handler. rewrite run_bind, run_get_job, Hj by exact Hf.
  destruct (job_live (j_state j)) eqn:Jl; cbn [negb].
  - (* the job is going on *)
    set (u' := (if tstate_eqb (t_state u) TScheduled then u <| t_state := TRunning |> <| t_started := Some (w_clock w) |> else u) <| t_node := t_node t |>).
    assert (Vu : view u' = view u).
    { pose proof (lively_good js _ u (ai_live _ (ci_ai _ _ _ _ HC) (view u) (in_map view _ _ Uin))) as G. unfold u'. destruct (tstate_eqb (t_state u) TScheduled) eqn:Es.
      - apply tstate_eqb_eq in Es. exact (view_started u (Some (w_clock w)) (t_node t) Es G).
      - exact (view_node u (t_node t)). }
    assert (Hfu : kfind t_id (t_id u) ts = Some u) by (rewrite Uid; exact A).
    assert (Bu : before u' -> before u /\ same_def u' u /\ clean u' /\ well_formed O u').
    { unfold u'. destruct (tstate_eqb (t_state u) TScheduled) eqn:Es; intros B.
      - destruct B as [B|B]; discriminate B.
      - assert (B' : before u) by exact B. destruct (proj2 Uok B') as (B1 & B2). split; [exact B'|]. split; [repeat split|]. split; [exact B1|apply wf_node; exact B2]. }
    assert (Iu : t_id u' = t_id u) by exact (f_equal r_id Vu). assert (Ru : rel u u').
    { split; [exact Iu|]. split; [exact (f_equal r_job Vu)|]. split; [exact (f_equal r_par Vu)|]. split; [intros B; destruct (Bu B) as (B1 & B2 & _); split; assumption|].
      intros _. unfold u'. destruct (tstate_eqb (t_state u) TScheduled) eqn:Es; [|reflexivity]. apply tstate_eqb_eq in Es. split; intros E; [discriminate E|rewrite Es in E; discriminate E]. }
    assert (Rk : rowok u') by (apply (rowok_same u); [exact Iu| |exact Uok]; intros B; destruct (Bu B) as (B1 & _ & B2); split; assumption).
    assert (Hx : exists w1 js1, run (if jstate_eqb (j_state j) JScheduled then job_handler O (j <| j_state := JRunning |>) else ret tt) w = (w1, Ok tt) /\
      w_tasks w1 = w_tasks w /\ w_jobs w1 = jold ++ js1 /\ w_nodes w1 = w_nodes w /\ w_faults w1 = [] /\ w_hist w1 = w_hist w /\ w_clock w1 = w_clock w /\ w_fresh w1 = w_fresh w /\
      Forall jobok js1 /\ JRel js js1 /\ map jview js1 = map jview js).
    { destruct (jstate_eqb (j_state j) JScheduled) eqn:Es.
      - assert (Es' : j_state j = JScheduled) by (destruct (j_state j); try discriminate Es; reflexivity).
        change (job_handler O (j <| j_state := JRunning |>)) with (mark_running (j <| j_state := JRunning |>)). unfold mark_running.
        change (j_id (j <| j_state := JRunning |>)) with (j_id j). set (j' := j <| j_state := JRunning |> <| j_failed := None |>).
        assert (Em : (modi (fun u0 => if jstate_eqb (j_state u0) JScheduled then u0 <| j_state := JRunning |> <| j_failed := None |> else u0) : job -> outcome (job * unit)) j = Ok (j', tt)) by (unfold modi; rewrite Es'; reflexivity).
        rewrite (run_update_job (j_id j) _ w j j' tt Hf); [|rewrite Jid; exact Hj|exact Em].
        assert (Fj : kfind j_id (j_id j) js = Some j) by (rewrite Jid; exact J1).
        exists (w <| w_jobs := put_job j' (w_jobs w) |>), (put_job j' js). split; [reflexivity|]. split; [reflexivity|].
        split; [change (put_job j' (w_jobs w) = jold ++ put_job j' js); rewrite (ci_j _ _ _ _ HC); apply put_job_new; change (j_id j') with (j_id j); rewrite Jid; exact Ji|].
        split; [reflexivity|]. split; [exact Hf|]. split; [reflexivity|]. split; [reflexivity|]. split; [reflexivity|].
        split; [apply jobs_put; [exact (ci_jobs _ _ _ _ HC)|exact Hjok]|]. split; [apply (JRel_put js j j' Fj eq_refl); intros E; discriminate E|].
        apply (put_jview_same js j j' (c_jnodup _ _ _ _ HC) Fj). unfold jview. change (j_state j') with JRunning. rewrite Es'. reflexivity.
      - exists w, js. split; [reflexivity|]. split; [reflexivity|]. split; [exact (ci_j _ _ _ _ HC)|]. split; [reflexivity|]. split; [exact Hf|]. split; [reflexivity|]. split; [reflexivity|]. split; [reflexivity|].
        split; [exact (ci_jobs _ _ _ _ HC)|]. split; [apply JRel_refl|reflexivity]. }
    destruct Hx as (w1 & js1 & E & X1 & X2 & X3 & X4 & X5 & X6 & X7 & X8 & X9 & X10). rewrite run_bind, E, run_bind, run_now, X6.
    assert (Hu1 : find_task (t_id t) w1 = Some u) by (unfold find_task; rewrite X1; exact Hu).
    rewrite (run_update_task (t_id t) _ w1 u u' tt X4 Hu1); [|reflexivity].
    eexists. split; [reflexivity|].
    apply (goes_still _ 1%nat R w ts js _ (put_task u' ts) js1 [] HC); try assumption; try reflexivity.
    + rewrite app_nil_r. exact X5.
    + change (put_task u' (w_tasks w1) = told ++ put_task u' ts). rewrite X1, (ci_t _ _ _ _ HC). apply put_task_new. rewrite Iu, Uid. exact Ui.
    + apply rows_put; [exact (ci_rows _ _ _ _ HC)|exact Rk].
    + exact (Rel_put ts u u' Hfu Ru).
    + apply Forall_nil.
    + exact (put_view_same ts u u' (c_nodup _ _ _ _ HC) Hfu Vu).
    + apply Forall_nil.
    + intros i. apply (takes_same i ts u u' Hfu Iu). unfold u'. destruct (tstate_eqb (t_state u) TScheduled) eqn:Es; [|reflexivity]. apply tstate_eqb_eq in Es. unfold taken. rewrite Es. reflexivity.
  - (* the job is over *)
    set (t' := t <| t_state := TCancelled |>). rewrite run_with_msg, run_bind.
    rewrite run_get_node by exact Hf. assert (Fn : find_node (t_node t') w = Some nd) by (unfold find_node; rewrite (ci_n _ _ _ _ HC); exact Nd). rewrite Fn.
    unfold publish_task. rewrite run_publish by exact Hf. eexists. split; [reflexivity|].
    assert (Np : String.prefix QUEUE_EXCLUSIVE_PREFIX (n_queue nd) = true) by (apply Hnodes; apply find_some in Nd; apply Nd).
    apply (goes_still _ 1%nat R w ts js _ ts js [MTask (n_queue nd) t'] HC); try reflexivity.
    + exact (ci_t _ _ _ _ HC).
    + exact (ci_j _ _ _ _ HC).
    + exact Hf.
    + exact (ci_rows _ _ _ _ HC).
    + exact (ci_jobs _ _ _ _ HC).
    + apply Rel_refl.
    + apply JRel_refl.
    + apply Forall_cons; [|apply Forall_nil]. exists u. split; [split; [exact A|split; assumption]|]. exact (proj1 (private_facts t' u _ Np)).
    + apply Forall_cons; [|apply Forall_nil]. exists 0%nat. split; [exact (proj2 (private_facts t' u _ Np))|lia].
Qed.
Lemma wf_progress s t : well_formed O t -> well_formed O (t <| t_progress := s |>).
Proof. destruct t. intros H. exact H. Qed.
Lemma view_progress u s : view (u <| t_progress := s |>) = view u.
Proof. destruct u. reflexivity. Qed.
Lemma progress_all w R ts js t : CI w (MProgress t :: R) ts js -> exists w', run (progress_handler t) w = (w', Ok tt) /\ goes (MProgress t) R w ts js w'.
Proof.
  intros HC. pose proof (ci_msgs _ _ _ _ HC) as HM. inversion HM as [|? ? M _]; subst. destruct M as (u & (A & Ej & Ep)).
  pose proof (ci_f _ _ _ _ HC) as Hf. destruct (c_own _ _ _ _ HC _ _ A) as (j & J1 & J2). rewrite <- Ej in J1. destruct (c_job _ _ _ _ HC _ _ J1) as (Ji & Jlt & Jid & Hj & Hjok & Jin).
  destruct (c_row _ _ _ _ HC _ _ A) as (Ui & Ult & Uid & Hu & Uok & Uin). unfold progress_handler. rewrite run_with_msg, run_bind.
  set (u' := u <| t_progress := clamp_progress (t_progress t) |>).
  change (t_id (t <| t_progress := clamp_progress (t_progress t) |>)) with (t_id t).
  rewrite (run_update_task (t_id t) _ w u u' tt Hf Hu); [|reflexivity].
  set (w1 := w <| w_tasks := put_task u' (w_tasks w) |>).
  rewrite run_bind, run_get_job by exact Hf. change (find_job (t_job (t <| t_progress := clamp_progress (t_progress t) |>)) w1) with (find_job (t_job t) w). rewrite Hj.
  pose proof Hjok as (_ & O2 & _ & _ & O5 & _). assert (Ec : (j_taskcount j =? 0) = false).
  { apply Z.eqb_neq. rewrite O5. destruct (j_tasks j); [contradiction O2; reflexivity|cbn [length]; lia]. }
  rewrite Ec. set (p := job_progress _ _ _). set (j' := j <| j_progress := p |>).
  change (t_job (t <| t_progress := clamp_progress (t_progress t) |>)) with (t_job t).
  rewrite (run_update_job (t_job t) _ w1 j j' tt); [|exact Hf|exact Hj|reflexivity].
  assert (Hfu : kfind t_id (t_id u) ts = Some u) by (rewrite Uid; exact A). assert (Hfj : kfind j_id (j_id j) js = Some j) by (rewrite Jid; exact J1).
  eexists. split; [reflexivity|].
  apply (goes_still _ 0%nat R w ts js _ (put_task u' ts) (put_job j' js) [] HC); try assumption; try reflexivity.
  - rewrite app_nil_r. reflexivity.
  - change (put_task u' (w_tasks w) = told ++ put_task u' ts). rewrite (ci_t _ _ _ _ HC). apply put_task_new. change (t_id u') with (t_id u). rewrite Uid. exact Ui.
  - change (put_job j' (w_jobs w) = jold ++ put_job j' js). rewrite (ci_j _ _ _ _ HC). apply put_job_new. change (j_id j') with (j_id j). rewrite Jid. exact Ji.
  - apply rows_put; [exact (ci_rows _ _ _ _ HC)|]. apply (rowok_same u); [reflexivity| |exact Uok]. intros B. assert (B' : before u) by exact B. destruct (proj2 Uok B') as (B1 & B2).
    split; [exact B'|]. split; [exact B1|apply wf_progress; exact B2].
  - apply jobs_put; [exact (ci_jobs _ _ _ _ HC)|exact Hjok].
  - apply (Rel_put ts u u' Hfu). split; [reflexivity|]. split; [reflexivity|]. split; [reflexivity|]. split; [intros B; split; [exact B|repeat split]|]. intros _. reflexivity.
  - apply (JRel_put js j j' Hfj eq_refl). intros E. contradiction.
  - apply Forall_nil.
  - apply (put_view_same ts u u' (c_nodup _ _ _ _ HC) Hfu). apply view_progress.
  - exact (put_jview_same js j j' (c_jnodup _ _ _ _ HC) Hfj eq_refl).
  - apply Forall_nil.
  - intros i. exact (takes_same i ts u u' Hfu eq_refl eq_refl).
Qed.
(** a message nobody acts on *)
Lemma ignored_all m R w ts js : CI w (m :: R) ts js -> tok m = KO 0 -> goes m R w ts js w.
Proof.
  intros HC E. apply (goes_still m 0%nat R w ts js w ts js [] HC E); try reflexivity.
  - now rewrite app_nil_r.
  - exact (ci_t _ _ _ _ HC).
  - exact (ci_j _ _ _ _ HC).
  - exact (ci_f _ _ _ _ HC).
  - exact (ci_rows _ _ _ _ HC).
  - exact (ci_jobs _ _ _ _ HC).
  - apply Rel_refl.
  - apply JRel_refl.
  - apply Forall_nil.
  - apply Forall_nil.
Qed.
(** a task at a worker *)
Section Workers.
Variable b : behaviour.
Hypothesis Hb : completes_all b.
Hypothesis Hr : forall k t, exists n, find (fun n => N.eqb (n_id n) (t_node (b_start b k t))) nodes0 = Some n.
Lemma worker_all k w R ts js q t : CI w (MTask q t :: R) ts js -> is_task_queue q = true ->
  goes (MTask q t) R w ts js (w <| w_hist := w_hist w ++ reports b k t |>).
Proof.
  intros HC Hq. pose proof (ci_msgs _ _ _ _ HC) as HM. inversion HM as [|? ? M _]; subst. destruct M as (u & (A & Ej & Ep) & _).
  destruct (Hb k t) as (B1 & B2 & B3 & B4 & B5).
  assert (Hon : forall x, worker_report t x -> onrow ts x u).
  { intros x Hx. destruct Hx as (X1 & X2 & X3 & _). unfold onrow. rewrite X1, X2, X3. split; [exact A|split; assumption]. }
  assert (Nq : forall s, is_task_queue s = false -> String.eqb q s = false) by (intros s E; apply String.eqb_neq; intros ->; rewrite Hq in E; discriminate E).
  apply (goes_one _ R w ts js _ ts js (reports b k t) HC); try reflexivity.
  - exact (ci_t _ _ _ _ HC).
  - exact (ci_j _ _ _ _ HC).
  - exact (ci_n _ _ _ _ HC).
  - exact (ci_f _ _ _ _ HC).
  - exact (ci_x _ _ _ _ HC).
  - exact (ci_rows _ _ _ _ HC).
  - exact (ci_jobs _ _ _ _ HC).
  - apply Rel_refl.
  - apply JRel_refl.
  - unfold reports. apply Forall_cons; [|apply Forall_app; split].
    + exists u. split; [exact (Hon _ B1)|]. exact (Hr k t).
    + apply Forall_map. eapply Forall_impl; [|exact B3]. intros x Hx. exists u. exact (Hon _ Hx).
    + apply Forall_cons; [|apply Forall_nil]. exists u. split; [exact (Hon _ B4)|]. split; [left; exact B5|].
      destruct (ai_kw _ (ci_ai _ _ _ _ HC) (t_id t)) as (r & R1 & R2).
      { left. unfold tok. rewrite (Nq QUEUE_PENDING), (Nq QUEUE_COMPLETED), Hq by reflexivity. reflexivity. }
      cbn in R1. apply rfind_view in R1 as (u1 & U1 & ->). rewrite A in U1. injection U1 as <-. cbn in R2.
      assert (N : ~ before u /\ t_state u <> TSkipped).
      { revert R2. unfold vst, before. destruct (t_state u); try discriminate; intros X; try (split; [intros [Y|Y]; discriminate Y|discriminate]). destruct (t_completed u); discriminate X. }
      split; [exact (proj1 N)|]. rewrite B5. split; intros Y; [contradiction (proj2 N Y)|discriminate Y].
  - unfold alpha. cbn [map]. assert (T : tok (MTask q t) = KW (t_id t)) by (unfold tok; rewrite (Nq QUEUE_PENDING), (Nq QUEUE_COMPLETED), Hq by reflexivity; reflexivity). rewrite T.
    assert (T2 : map tok (reports b k t ++ R) = (((KO 1) :: map tok (map MProgress (b_progress b k t))) ++ [KC (t_id t)]) ++ map tok R).
    { rewrite map_app. f_equal. unfold reports. cbn [map]. rewrite map_app. cbn [map app]. change (tok (MTask QUEUE_STARTED (b_start b k t))) with (KO 1).
      change (tok (MTask QUEUE_COMPLETED (b_done b k t))) with (KC (t_id (b_done b k t))). destruct B4 as (-> & _). reflexivity. }
    rewrite T2. apply s_worker. apply Forall_cons; [exists 1%nat; split; [reflexivity|lia]|]. rewrite map_map. apply Forall_map. apply Forall_forall. intros x _. exists 0%nat. split; [reflexivity|lia].
  - intros i. rewrite given_none; [reflexivity|]. unfold reports. apply Forall_cons; [reflexivity|]. apply Forall_app. split; [apply Forall_map, Forall_forall; reflexivity|]. apply Forall_cons; [reflexivity|apply Forall_nil].
Qed.

(** ** Any message *)
Lemma consume_all k w R ts js m : CI w (m :: R) ts js -> goes m R w ts js (consume O b k m w).
Proof.
  intros HC. pose proof (ci_msgs _ _ _ _ HC) as HM. inversion HM as [|? ? M _]; subst. destruct m as [q t|j|tp j|t|n].
  - unfold consume. destruct (is_task_queue q) eqn:Hq; [exact (worker_all k w R ts js q t HC Hq)|]. destruct M as (u & (A & Ej & Ep) & Mq). unfold mtaskok in Mq. rewrite Hq in Mq.
    destruct (c_row _ _ _ _ HC _ _ A) as (Ui & Ult & _). cbn [deliver].
    destruct (String.eqb q QUEUE_PENDING) eqn:E1.
    { apply String.eqb_eq in E1. subst q. destruct (pend_all w R ts js t HC) as (w' & Er & G). unfold task_wrapper. rewrite run_catch, Er. exact G. }
    destruct (String.eqb q QUEUE_COMPLETED) eqn:E2.
    { apply String.eqb_eq in E2. subst q. destruct (completed_all (N.to_nat (w_fresh w)) w R ts js t HC) as (w' & Er & G); [lia|]. unfold task_wrapper. rewrite run_catch, Er. exact G. }
    destruct (String.eqb q QUEUE_STARTED) eqn:E3.
    { apply String.eqb_eq in E3. subst q. destruct (started_all w R ts js t HC) as (w' & Er & G). unfold task_wrapper. rewrite run_catch, Er. exact G. }
    assert (E4 : String.eqb q QUEUE_ERROR = false) by (apply String.eqb_neq; intros ->; discriminate Mq).
    assert (E5 : String.eqb q QUEUE_REDELIVERIES = false) by (apply String.eqb_neq; intros ->; discriminate Mq).
    rewrite E4, E5, run_ret. apply ignored_all; [exact HC|]. exact (proj2 (private_facts t u q Mq)).
  - destruct (start_all w R ts js j HC) as (w' & Er & G). unfold consume, deliver, job_wrapper. rewrite run_catch, Er. exact G.
  - unfold consume, deliver. rewrite run_ret. exact (ignored_all _ R w ts js HC eq_refl).
  - destruct (progress_all w R ts js t HC) as (w' & Er & G). unfold consume, deliver, task_wrapper. rewrite run_catch, Er. exact G.
  - contradiction.
Qed.
End Workers.
(** ** Worlds that differ in clock and planned failures, and messages in another order *)
Lemma CI_clock w U ts js c : CI w U ts js -> CI (w <| w_clock := c |> <| w_faults := [] |>) U ts js.
Proof. intros [H1 H2 H3 H4 H5 H6 H7 H8 H9]. split; try assumption. reflexivity. Qed.
Lemma CI_perm w U U' ts js : Permutation U U' -> CI w U ts js -> CI w U' ts js.
Proof.
  intros P [H1 H2 H3 H4 H5 H6 H7 H8 H9]. split; try assumption; [exact (Permutation_Forall P H8)|].
  apply (aeq_AI (alpha w ts js U)); [|exact H9]. split; [reflexivity|]. split; [reflexivity|]. split; [reflexivity|]. cbn. exact (Permutation_map tok P).
Qed.
Lemma aeq_alpha w ts js U U' : Permutation U U' -> aeq (alpha w ts js U) (alpha w ts js U').
Proof. intros P. split; [reflexivity|]. split; [reflexivity|]. split; [reflexivity|]. cbn. exact (Permutation_map tok P). Qed.
Lemma asteps_aeq a b c d : aeq a b -> asteps b c -> aeq c d -> asteps a d.
Proof.
  intros E1 S. revert a d E1. induction S as [x y z t F1 S F2|x y z S1 IH1 S2 IH2]; intros a d E1 E2.
  - refine (as_one a y z d _ S _); eapply aeq_trans; eassumption.
  - refine (as_more a y d (IH1 _ _ E1 (aeq_refl _)) (IH2 _ _ (aeq_refl _) E2)).
Qed.

(** ** A submission *)
Lemma submit_all w U ts js d : CI w U ts js -> submittable O d ->
  exists w' j, run (api_submit d) w = (w', Ok tt) /\ w_hist w' = w_hist w ++ [MJob j] /\ j_id j = w_fresh w /\ CI w' (MJob j :: U) ts (js ++ [j]) /\
    (forall cont jc, AIc cont jc (alpha w ts js U) -> AIc cont jc (alpha w' ts (js ++ [j]) (MJob j :: U))).
Proof.
  intros HC ((A1 & A2 & A3) & A4 & A5 & A6). pose proof (ci_f _ _ _ _ HC) as Hf. pose proof (ci_x _ _ _ _ HC) as Hx.
  set (w1 := w <| w_fresh := N.succ (w_fresh w) |>). set (j := new_job (w_fresh w) (w_clock w) d).
  exists (w1 <| w_jobs := w_jobs w ++ [j] |> <| w_hist := w_hist w ++ [MJob j] |>), j. split; [|split; [reflexivity|split; [reflexivity|]]].
  { unfold api_submit. rewrite run_bind, run_new_id, run_bind, run_now, run_bind. fold w1. change (w_clock w1) with (w_clock w). fold j.
    rewrite run_create_job; [|exact Hf|exact (c_newjob _ _ _ _ HC)]. unfold publish_job. rewrite run_publish by exact Hf. reflexivity. }
  assert (Jn : kfind j_id (w_fresh w) js = None).
  { destruct (kfind j_id (w_fresh w) js) as [y|] eqn:E; [|reflexivity]. destruct (c_job _ _ _ _ HC _ _ E) as (_ & L & _). lia. }
  assert (Ja : map jview (js ++ [j]) = map jview js ++ [jview j]) by (rewrite map_app; reflexivity).
  assert (Jt : j_tasks j = j_tasks d) by reflexivity.
  split.
  - pose proof HC as [H1 H2 H3 H4 H5 H6 H7 H8 H9]. split; try assumption.
    + change (w_jobs w ++ [j] = jold ++ js ++ [j]). rewrite H2. now rewrite app_assoc.
    + change (i0 <= N.succ (w_fresh w))%N. lia.
    + apply Forall_app. split; [exact H7|]. apply Forall_cons; [|apply Forall_nil]. split; [exact Hx|]. repeat (split; [assumption|]). split; [reflexivity|]. split; [exact A5|exact A6].
    + apply Forall_cons; [split; [reflexivity|]|].
      * exists j. split; [|reflexivity]. rewrite kfind_app. change (j_id j) with (w_fresh w). rewrite Jn. unfold kfind. cbn [find]. change (j_id j) with (w_fresh w). now rewrite N.eqb_refl.
      * eapply msgs_stable; [apply Rel_refl|apply JRel_app|exact H8].
    + unfold alpha. rewrite Ja. refine (AI_submit (map view ts) (map jview js) (map tok U) (w_fresh w) (jview j) H9 _ eq_refl eq_refl eq_refl _); [lia|].
      cbn [q_hs jview]. rewrite Jt. intros E. apply A1. destruct (j_tasks d); [reflexivity|discriminate E].
  - intros cont jc HA. unfold alpha. rewrite Ja. exact (AIc_submit (map view ts) (map jview js) (map tok U) (w_fresh w) (jview j) cont jc (ci_ai _ _ _ _ HC) HA eq_refl eq_refl).
Qed.

(** ** The run *)
(** what holds at every moment of a run *)
Definition runs (w : world) (U : list msg) (ts : list task) (js : list job) : Prop :=
  CI (w <| w_faults := [] |>) U ts js /\ exists cont jc, AIc cont jc (alpha w ts js U).
Lemma runs_clock w U ts js c : runs w U ts js -> CI (w <| w_clock := c |> <| w_faults := [] |>) U ts js.
Proof. intros (H & _). exact (CI_clock _ U ts js c H). Qed.
Lemma runs_start w : w_tasks w = told -> w_jobs w = jold -> w_nodes w = nodes0 -> w_fresh w = i0 -> runs w [] [] [].
Proof.
  intros H1 H2 H3 H4. split.
  - split; try reflexivity; try exact (Forall_nil _).
    + change (w_tasks w = told ++ []). now rewrite app_nil_r.
    + change (w_jobs w = jold ++ []). now rewrite app_nil_r.
    + exact H3.
    + change (i0 <= w_fresh w)%N. lia.
    + split; cbn; try exact (NoDup_nil _); intros; match goal with H : False |- _ => destruct H end.
  - exists (fun _ => 0%nat), (fun _ => 0%nat). split; cbn; intros; match goal with H : False |- _ => destruct H end.
Qed.
Section Moves.
Variable b : behaviour.
Hypothesis Hb : completes_all b.
Hypothesis Hr : forall k t, exists n, find (fun n => N.eqb (n_id n) (t_node (b_start b k t))) nodes0 = Some n.
Lemma since_app w w' new : w_hist w' = w_hist w ++ new -> since w w' = new.
Proof. intros E. unfold since. rewrite E, skipn_app, skipn_all, Nat.sub_diag. reflexivity. Qed.
Lemma runs_submit w l k d ts js s' : runs w l ts js -> moves O b (Some d) (mkRunning w l k) s' ->
  exists j, j_id j = w_fresh w /\ runs (r_world s') (r_flight s') ts (js ++ [j]) /\ w_hist (r_world s') = w_hist w ++ [MJob j].
Proof.
  intros HR HM. inversion HM; subst. clear HM. match goal with |- context [fst (run _ ?x)] => set (w0 := x) end.
  destruct (submit_all w0 l ts js d (runs_clock w l ts js _ HR)) as (w' & j & E1 & E2 & E3 & E4 & E5); [assumption|]. rewrite E1. cbn [fst r_world r_flight].
  exists j. split; [exact E3|]. split; [|exact E2]. rewrite (since_app w w' [MJob j] E2). assert (P : Permutation (MJob j :: l) (l ++ [MJob j])) by apply Permutation_cons_append.
  destruct HR as (_ & cont & jc & HA). split; [apply (CI_clock _ _ _ _ (w_clock w')) in E4; refine (CI_perm _ _ _ _ _ P _); destruct w'; exact E4|].
  exists cont, jc. apply (aeq_AIc _ _ _ _ (aeq_alpha w' ts (js ++ [j]) _ _ P)). apply E5. exact HA.
Qed.
Lemma runs_consume w l k ts js s' : runs w l ts js -> l <> [] -> moves O b None (mkRunning w l k) s' ->
  exists ts' js', runs (r_world s') (r_flight s') ts' js' /\ asteps (alpha w ts js l) (alpha (r_world s') ts' js' (r_flight s')) /\
    exists new, w_hist (r_world s') = w_hist w ++ new /\ forall i, (given i new + takes i ts = takes i ts')%nat.
Proof.
  intros HR Hl HM. inversion HM as [|w1 l1 m l2 k1 w0 w' E0 E1|]; subst; [|contradiction Hl; reflexivity]. clear HM. set (w0 := w <| w_clock := b_clock b k |> <| w_faults := [] |>).
  assert (P : Permutation (l1 ++ m :: l2) (m :: l1 ++ l2)) by (symmetry; apply Permutation_middle).
  pose proof (CI_perm _ _ _ _ _ P (runs_clock w _ ts js (b_clock b k) HR)) as HC. fold w0 in HC.
  destruct (consume_all b Hb Hr k w0 (l1 ++ l2) ts js m HC) as (ts' & js' & new & E2 & C' & S' & G'). set (w' := consume O b k m w0) in *.
  cbn [r_world r_flight]. rewrite (since_app w w' new E2). assert (P' : Permutation (new ++ l1 ++ l2) (l1 ++ l2 ++ new)) by (rewrite (app_assoc l1 l2 new); apply Permutation_app_comm).
  exists ts', js'. assert (St : asteps (alpha w ts js (l1 ++ m :: l2)) (alpha w' ts' js' (l1 ++ l2 ++ new))).
  { refine (asteps_aeq _ (alpha w0 ts js (m :: l1 ++ l2)) (alpha w' ts' js' (new ++ l1 ++ l2)) _ _ S' _); [exact (aeq_alpha w ts js _ _ P)|exact (aeq_alpha w' ts' js' _ _ P')]. }
  split; [|split; [exact St|exists new; split; [exact E2|exact G']]]. split.
  - apply (CI_clock _ _ _ _ (w_clock w')) in C'. refine (CI_perm _ _ _ _ _ P' _). destruct w'; exact C'.
  - destruct HR as (HC0 & cont & jc & HA). destruct (asteps_dec _ _ St (ci_ai _ _ _ _ HC0) cont jc HA) as (cont' & jc' & HA' & _). eauto.
Qed.
End Moves.
(** ** What a picture says about the rows *)
Lemma runs_states w U ts js : runs w U ts js -> Forall (fun t => In (t_state t) [TCreated; TPending; TScheduled; TRunning; TCompleted; TSkipped]) ts /\ Forall (fun j => In (j_state j) [JPending; JScheduled; JRunning; JCompleted]) js.
Proof.
  intros (HC & _). split; apply Forall_forall.
  - intros t Ht. pose proof (lively_good js _ t (ai_live _ (ci_ai _ _ _ _ HC) (view t) (in_map view _ _ Ht))) as G. unfold vst in G.
    destruct (t_state t); try (contradiction G; reflexivity); cbn; tauto.
  - intros j Hj. pose proof (ai_job _ (ci_ai _ _ _ _ HC) (jview j) (in_map jview _ _ Hj)) as G. cbn in G. destruct (j_state j); cbn in G; try contradiction; cbn; tauto.
Qed.
Lemma runs_over w ts js : runs w [] ts js -> Forall (fun t => t_state t = TCompleted \/ t_state t = TSkipped) ts /\ Forall (fun j => j_state j = JCompleted) js.
Proof.
  intros (HC & _). destruct (AbsLive.quiet _ (ci_ai _ _ _ _ HC) eq_refl) as (Q1 & Q2). split; apply Forall_forall.
  - intros t Ht. pose proof (Q1 (view t) (in_map view _ _ Ht)) as G. cbn in G. unfold vst in G. destruct (t_state t); try discriminate G; auto.
    + destruct (t_parallel t), (t_each t), (t_subjob t); discriminate G.
    + destruct (t_parallel t); [discriminate G|]. destruct (t_each t); [discriminate G|]. destruct (t_subjob t) as [x|]; [destruct (s_detached x)|]; discriminate G.
  - intros j Hj. pose proof (Q2 (jview j) (in_map jview _ _ Hj)) as G. cbn in G. destruct (j_state j); try discriminate G. reflexivity.
Qed.
End Sim.
