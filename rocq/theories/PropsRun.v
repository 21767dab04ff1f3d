(** Property theorems C72: jobs of every shape, submitted at any time, complete whatever the order in which their messages are consumed. *)
From Verif Require Import SpecRun RunSim SeqTools InvMsgs PropsState Live Sim PropsSched PropsLive.
Open Scope string_scope.
Open Scope list_scope.
Open Scope Z_scope.

(** the deployment [w0] is any reachable one with no message of its own in flight; [e n] is the job submitted at step [n], if there is one;
    at every other step one of the messages in flight, any one, is consumed *)
Section Run.
Variables (O : oracle) (b : behaviour) (w0 : world) (r : nat -> running) (e : nat -> option job).
Hypothesis HR : reachable O (mkConfig w0 []).
Hypothesis Hb : completes_all b.
Hypothesis Hn : registered b w0.
Hypothesis H0 : r 0%nat = mkRunning w0 [] 0.
Hypothesis Hm : forall n, moves O b (e n) (r n) (r (S n)).
Let i0 := w_fresh w0.
Let Inv0 : Inv w0 := reachable_inv O _ HR.
Let G := runs O i0 (w_tasks w0) (w_jobs w0) (w_nodes w0).
Lemma l_i0 : (0 < i0)%N. Proof. exact (inv_fresh _ Inv0). Qed.
Lemma l_told t : In t (w_tasks w0) -> (t_id t < i0)%N /\ (t_parent t < i0)%N.
Proof.
  intros Ht. destruct (inv_task_fresh _ Inv0 t Ht) as (_ & A). split; [exact A|]. destruct (inv_tasks _ Inv0 t Ht) as (_ & _ & P & _).
  destruct (N.eq_dec (t_parent t) noid) as [E|E]; [rewrite E; exact l_i0|]. destruct (P E) as (B & _). unfold i0. lia.
Qed.
Lemma l_jold j : In j (w_jobs w0) -> (j_id j < i0)%N. Proof. intros Hj. exact (proj2 (inv_job_fresh _ Inv0 j Hj)). Qed.
Lemma l_nodes n : In n (w_nodes w0) -> String.prefix QUEUE_EXCLUSIVE_PREFIX (n_queue n) = true. Proof. exact (inv_nodes _ Inv0 n). Qed.
Lemma l_reg k t : exists n, find (fun n => N.eqb (n_id n) (t_node (b_start b k t))) (w_nodes w0) = Some n. Proof. exact (Hn k t). Qed.
Lemma l_running s : s = mkRunning (r_world s) (r_flight s) (r_steps s). Proof. destruct s; reflexivity. Qed.
Lemma l_rest n : e n = None -> r_flight (r n) = [] -> r (S n) = r n.
Proof.
  intros E F. pose proof (Hm n) as M. rewrite E, (l_running (r n)), F in M. inversion M as [|? l1 m l2|]; subst.
  - destruct l1; discriminate.
  - rewrite (l_running (r n)), F. reflexivity.
Qed.
Lemma l_good n : exists ts js, G (r_world (r n)) (r_flight (r n)) ts js.
Proof.
  induction n as [|n (ts & js & H)].
  - exists [], []. rewrite H0. exact (runs_start O i0 _ _ _ l_i0 w0 eq_refl eq_refl eq_refl eq_refl).
  - pose proof (Hm n) as M. rewrite (l_running (r n)) in M. destruct (e n) as [d|] eqn:E.
    + destruct (runs_submit O i0 _ _ _ l_i0 l_jold b _ _ _ d ts js _ H M) as (j & _ & H' & _). eauto.
    + destruct (r_flight (r n)) as [|m l] eqn:F.
      * rewrite (l_rest n E F). rewrite F. eauto.
      * destruct (runs_consume O i0 _ _ _ l_i0 l_told l_jold l_nodes b Hb l_reg _ _ _ ts js _ H ltac:(discriminate) M) as (ts' & js' & H' & _). eauto.
Qed.
(** jobs stay *)
Lemma l_keep n i : (exists ts js, G (r_world (r n)) (r_flight (r n)) ts js /\ In i (map j_id js)) -> forall m, exists ts js, G (r_world (r (m + n)%nat)) (r_flight (r (m + n)%nat)) ts js /\ In i (map j_id js).
Proof.
  intros Hi m. induction m as [|m (ts & js & H & Hin)]; [exact Hi|]. cbn [plus]. pose proof (Hm (m + n)%nat) as M. rewrite (l_running (r (m + n)%nat)) in M. destruct (e (m + n)%nat) as [d|] eqn:E.
  - destruct (runs_submit O i0 _ _ _ l_i0 l_jold b _ _ _ d ts js _ H M) as (j & _ & H' & _). exists ts, (js ++ [j]). split; [exact H'|]. rewrite map_app. apply in_or_app. left. exact Hin.
  - destruct (r_flight (r (m + n)%nat)) as [|x l] eqn:F.
    + rewrite (l_rest _ E F). rewrite F. eauto.
    + destruct (runs_consume O i0 _ _ _ l_i0 l_told l_jold l_nodes b Hb l_reg _ _ _ ts js _ H ltac:(discriminate) M) as (ts' & js' & H' & S' & _). exists ts', js'. split; [exact H'|].
      pose proof (asteps_jobs _ _ S' i) as K. cbn in K. rewrite !map_qid in K. exact (K Hin).
Qed.
Lemma l_end N : (forall n, (N <= n)%nat -> e n = None) -> exists n, (N <= n)%nat /\ r_flight (r n) = [].
Proof.
  intros He. destruct (l_good N) as (ts & js & H). assert (Gen : forall a, Acc (fun y x => AI x /\ asteps x y) a -> forall n ts js, (N <= n)%nat -> G (r_world (r n)) (r_flight (r n)) ts js ->
    a = alpha (r_world (r n)) ts js (r_flight (r n)) -> exists n', (N <= n')%nat /\ r_flight (r n') = []).
  { clear ts js H. intros a Ha. induction Ha as [a _ IH]. intros n ts js Hle H E. destruct (r_flight (r n)) as [|m l] eqn:F; [exists n; split; [exact Hle|exact F]|].
    pose proof (Hm n) as M. rewrite (He n Hle), (l_running (r n)), F in M.
    destruct (runs_consume O i0 _ _ _ l_i0 l_told l_jold l_nodes b Hb l_reg _ _ _ ts js _ H ltac:(discriminate) M) as (ts' & js' & H' & S' & _).
    assert (A : AI a) by (rewrite E; exact (ci_ai _ _ _ _ _ _ _ _ _ (proj1 H))).
    refine (IH _ _ (S n) ts' js' _ H' eq_refl); [split; [exact A|rewrite E; exact S']|lia]. }
  refine (Gen _ (asteps_Acc _ _ _) N ts js (le_n _) H eq_refl); [exact (ci_ai _ _ _ _ _ _ _ _ _ (proj1 H))|exact (proj2 H)].
Qed.
Lemma l_tasks n ts js (P : task -> Prop) : G (r_world (r n)) (r_flight (r n)) ts js -> Forall P ts -> new_tasks i0 (r_world (r n)) P.
Proof.
  intros (H & _) HP t Ht Hi. pose proof (ci_t _ _ _ _ _ _ _ _ _ H) as E. change (w_tasks (r_world (r n)) = w_tasks w0 ++ ts) in E. rewrite E in Ht. apply in_app_iff in Ht as [Ht|Ht].
  - destruct (inv_tasks _ Inv0 t Ht) as (_ & _ & _ & j & Hj). pose proof (find_job_id _ _ _ Hj) as Hid. apply find_job_in in Hj. apply l_jold in Hj. lia.
  - rewrite Forall_forall in HP. exact (HP t Ht).
Qed.
Lemma l_jobs n ts js (P : job -> Prop) : G (r_world (r n)) (r_flight (r n)) ts js -> Forall P js -> new_jobs i0 (r_world (r n)) P.
Proof.
  intros (H & _) HP t Ht Hi. pose proof (ci_j _ _ _ _ _ _ _ _ _ H) as E. change (w_jobs (r_world (r n)) = w_jobs w0 ++ js) in E. rewrite E in Ht. apply in_app_iff in Ht as [Ht|Ht].
  - apply l_jold in Ht. lia.
  - rewrite Forall_forall in HP. exact (HP t Ht).
Qed.
Lemma l_found n ts js i : G (r_world (r n)) (r_flight (r n)) ts js -> In i (map j_id js) -> exists j, In j js /\ find_job i (r_world (r n)) = Some j.
Proof.
  intros (H & _) Hin. destruct (kfind j_id i js) as [j|] eqn:E.
  - destruct (RunSim.c_job O i0 _ _ _ l_i0 l_jold _ _ _ _ H i j E) as (_ & _ & _ & F & _ & I). exists j. split; [exact I|exact F].
  - apply kfind_none in E. contradiction.
Qed.
Lemma l_stays n : (forall m, (n <= m)%nat -> e m = None) -> r_flight (r n) = [] -> forall m, r (m + n)%nat = r n.
Proof. intros He F m. induction m as [|m IH]; [reflexivity|]. cbn [plus]. rewrite l_rest; [exact IH|apply He; lia|rewrite IH; exact F]. Qed.
Lemma l_reach n : reachable O (mkConfig (r_world (r n)) []) /\ (forall m, In m (r_flight (r n)) -> In m (w_hist (r_world (r n)))).
Proof.
  assert (Since : forall w w', (exists l, w_hist w' = w_hist w ++ l) -> forall x, In x (since w w') -> In x (w_hist w')).
  { intros w w' (l & E) x Hx. unfold since in Hx. rewrite E, skipn_app, skipn_all, Nat.sub_diag in Hx. rewrite E. apply in_or_app. right. exact Hx. }
  induction n as [|n (A & B)].
  - rewrite H0. split; [exact HR|intros m []].
  - pose proof (Hm n) as M. rewrite (l_running (r n)) in M. inversion M as [d w l k w1 w2 E1 Hd E2|w l1 m l2 k w1 w2 E1 E2|w k].
    + assert (A1 : reachable O (mkConfig w1 [])) by (rewrite E1; exact (clock_reachable O (r_world (r n)) (b_clock b (r_steps (r n))) A)). pose proof (submit_reachable O w1 d A1 (proj1 Hd)) as A2. rewrite <- E2 in A2.
      cbn [r_world r_flight]. split; [exact A2|].
      assert (Hh : exists l', w_hist w2 = w_hist (r_world (r n)) ++ l').
      { destruct (l_good n) as (ts & js & HG). destruct (submit_all O i0 (w_tasks w0) (w_jobs w0) (w_nodes w0) l_i0 l_jold w1 (r_flight (r n)) ts js d) as (w' & j & F1 & F2 & _); [rewrite E1; exact (runs_clock _ _ _ _ _ _ _ _ _ _ HG)|exact Hd|].
        rewrite E2, F1. exists [MJob j]. cbn [fst]. rewrite F2, E1. reflexivity. }
      intros m Hmm. apply in_app_iff in Hmm as [Hmm|Hmm]; [|exact (Since _ _ Hh m Hmm)]. destruct Hh as (l' & ->). apply in_or_app. left. exact (B m Hmm).
    + match goal with X : l1 ++ m :: l2 = _ |- _ => rename X into E3 end.
      assert (A1 : reachable O (mkConfig w1 [])) by (rewrite E1; exact (clock_reachable O (r_world (r n)) (b_clock b (r_steps (r n))) A)). cbn [r_world r_flight].
      assert (Hin : In m (w_hist w1)) by (rewrite E1; apply B; rewrite <- E3; apply in_elt).
      assert (A2 : reachable O (mkConfig w2 [])).
      { rewrite E2. unfold consume. destruct m as [q t| | | |]; try (apply run_reachable; assumption). destruct (is_task_queue q) eqn:Eq; [|apply run_reachable; assumption].
        apply emits_reachable; [exact A1|]. intros m Hmm. destruct (Hb (r_steps (r n)) t) as (X1 & X2 & X3 & X4 & X5).
        unfold reports in Hmm. cbn in Hmm. destruct Hmm as [<-|Hmm]; [eapply env_started; eauto|].
        apply in_app_iff in Hmm as [Hmm|[<-|[]]]; [|eapply env_completed; eauto].
        apply in_map_iff in Hmm as (x & <- & Hx). rewrite Forall_forall in X3. eapply env_progress; eauto. }
      split; [exact A2|].
      assert (Hh : exists l', w_hist w2 = w_hist (r_world (r n)) ++ l').
      { destruct (l_good n) as (ts & js & HG). assert (HC : CI O i0 (w_tasks w0) (w_jobs w0) (w_nodes w0) w1 (r_flight (r n)) ts js) by (rewrite E1; exact (runs_clock _ _ _ _ _ _ _ _ _ (b_clock b (r_steps (r n))) HG)).
        assert (P : Permutation.Permutation (r_flight (r n)) (m :: l1 ++ l2)) by (rewrite <- E3; symmetry; apply Permutation.Permutation_middle). apply (CI_perm _ _ _ _ _ _ _ _ _ _ P) in HC.
        destruct (consume_all O i0 (w_tasks w0) (w_jobs w0) (w_nodes w0) l_i0 l_told l_jold l_nodes b Hb l_reg (r_steps (r n)) w1 (l1 ++ l2) ts js m HC) as (ts' & js' & new & F & _). exists new. rewrite E2, F, E1. reflexivity. }
      intros x Hx. apply in_app_iff in Hx as [Hx|Hx]; [|apply in_app_iff in Hx as [Hx|Hx]; [|exact (Since _ _ Hh x Hx)]];
        destruct Hh as (l' & ->); apply in_or_app; left; apply B; rewrite <- E3; apply in_or_app; [left; exact Hx|right; right; exact Hx].
    + cbn [r_world r_flight]. split; [exact A|intros m []].
Qed.

Lemma l_completes : (exists N, forall n, (N <= n)%nat -> e n = None) ->
  exists n, forall m, (n <= m)%nat ->
    r m = r n /\ r_flight (r m) = [] /\
    (forall k d, e k = Some d -> exists j, find_job (w_fresh (r_world (r k))) (r_world (r m)) = Some j /\ j_state j = JCompleted) /\
    new_jobs (w_fresh w0) (r_world (r m)) (fun j => j_state j = JCompleted) /\
    new_tasks (w_fresh w0) (r_world (r m)) (fun t => t_state t = TCompleted \/ t_state t = TSkipped).
Proof.
  intros (N & He). destruct (l_end N He) as (n & Hle & F). exists n. intros m Hnm.
  assert (St : r m = r n) by (replace m with ((m - n) + n)%nat by lia; apply l_stays; [intros x Hx; apply He; lia|exact F]).
  split; [exact St|]. split; [rewrite St; exact F|]. destruct (l_good n) as (ts & js & H). pose proof H as H'. unfold G in H'. rewrite F in H'. destruct (runs_over _ _ _ _ _ _ _ _ H') as (T1 & T2).
  rewrite St. split; [|split; [exact (l_jobs n ts js _ H T2)|exact (l_tasks n ts js _ H T1)]].
  intros k d Ek. assert (Hk : (S k <= n)%nat) by (destruct (Nat.le_gt_cases N k) as [L|L]; [rewrite (He k L) in Ek; discriminate Ek|lia]).
  destruct (l_good k) as (tk & jk & HK). pose proof (Hm k) as M. rewrite Ek, (l_running (r k)) in M.
  destruct (runs_submit O i0 _ _ _ l_i0 l_jold b _ _ _ d tk jk _ HK M) as (j & Hj & HK' & _).
  destruct (l_keep (S k) (w_fresh (r_world (r k)))) with (m := (n - S k)%nat) as (tx & jx & HX & HinX).
  { exists tk, (jk ++ [j]). split; [exact HK'|]. rewrite map_app. apply in_or_app. right. left. exact Hj. }
  replace (n - S k + S k)%nat with n in HX by lia. destruct (l_found n tx jx _ HX HinX) as (y & Y1 & Y2). exists y. split; [exact Y2|].
  unfold G in HX. rewrite F in HX. destruct (runs_over _ _ _ _ _ _ _ _ HX) as (_ & T3). rewrite Forall_forall in T3. exact (T3 y Y1).
Qed.

Lemma l_states : forall n,
  new_jobs (w_fresh w0) (r_world (r n)) (fun j => In (j_state j) [JPending; JScheduled; JRunning; JCompleted]) /\
  new_tasks (w_fresh w0) (r_world (r n)) (fun t => In (t_state t) [TCreated; TPending; TScheduled; TRunning; TCompleted; TSkipped]).
Proof.
  intros n. destruct (l_good n) as (ts & js & H). destruct (runs_states _ _ _ _ _ _ _ _ _ H) as (T1 & T2). split; [exact (l_jobs n ts js _ H T2)|exact (l_tasks n ts js _ H T1)].
Qed.

Lemma l_given n : exists ts js l, G (r_world (r n)) (r_flight (r n)) ts js /\ w_hist (r_world (r n)) = w_hist w0 ++ l /\ forall i, given i l = takes i ts.
Proof.
  induction n as [|n (ts & js & l & H & Hl & Hg)].
  - exists [], [], []. rewrite H0. split; [exact (runs_start O i0 _ _ _ l_i0 w0 eq_refl eq_refl eq_refl eq_refl)|]. split; [symmetry; apply app_nil_r|reflexivity].
  - pose proof (Hm n) as M. rewrite (l_running (r n)) in M. destruct (e n) as [d|] eqn:E.
    + destruct (runs_submit O i0 _ _ _ l_i0 l_jold b _ _ _ d ts js _ H M) as (j & _ & H' & Hh). exists ts, (js ++ [j]), (l ++ [MJob j]). split; [exact H'|]. split; [rewrite Hh, Hl; symmetry; apply app_assoc|].
      intros i. unfold given. rewrite cnt_app. fold (given i l). rewrite Hg. apply Nat.add_0_r.
    + destruct (r_flight (r n)) as [|m fl] eqn:F.
      * rewrite (l_rest n E F). rewrite F. exists ts, js, l. split; [exact H|split; [exact Hl|exact Hg]].
      * destruct (runs_consume O i0 _ _ _ l_i0 l_told l_jold l_nodes b Hb l_reg _ _ _ ts js _ H ltac:(discriminate) M) as (ts' & js' & H' & _ & new & Hh & Hn').
        exists ts', js', (l ++ new). split; [exact H'|]. split; [rewrite Hh, Hl; symmetry; apply app_assoc|].
        intros i. unfold given. rewrite cnt_app. fold (given i l). fold (given i new). rewrite Hg, <- (Hn' i). apply Nat.add_comm.
Qed.
Lemma l_since n l : w_hist (r_world (r n)) = w_hist w0 ++ l -> since w0 (r_world (r n)) = l.
Proof. intros E. unfold since. rewrite E, skipn_app, skipn_all, Nat.sub_diag. reflexivity. Qed.
Lemma l_handed n :
  (forall t, In t (w_tasks (r_world (r n))) -> (w_fresh w0 <= t_job t)%N ->
    given_out (t_id t) (since w0 (r_world (r n))) = match t_state t with TScheduled | TRunning | TCompleted => if container t then 0%nat else 1%nat | _ => 0%nat end) /\
  (forall i, (forall t, In t (w_tasks (r_world (r n))) -> (w_fresh w0 <= t_job t)%N -> t_id t <> i) -> given_out i (since w0 (r_world (r n))) = 0%nat).
Proof.
  destruct (l_given n) as (ts & js & l & H & Hl & Hg). rewrite (l_since n l Hl). pose proof (proj1 H) as HC.
  pose proof (ci_t _ _ _ _ _ _ _ _ _ HC) as Et. change (w_tasks (r_world (r n)) = w_tasks w0 ++ ts) in Et. rewrite Et.
  assert (Own : forall u, In u ts -> (w_fresh w0 <= t_job u)%N).
  { intros u Hu. assert (Nd : NoDup (map t_id ts)) by exact (c_nodup O i0 _ _ _ _ _ _ _ HC).
    destruct (c_own O i0 _ _ _ _ _ _ _ HC (t_id u) u (kfind_in t_id ts u Nd Hu)) as (j & J1 & _).
    destruct (RunSim.c_job O i0 _ _ _ l_i0 l_jold _ _ _ _ HC (t_job u) j J1) as (L & _). exact L. }
  split.
  - intros t Ht Hi. apply in_app_iff in Ht as [Ht|Ht].
    + destruct (inv_tasks _ Inv0 t Ht) as (_ & _ & _ & j & Hj). pose proof (find_job_id _ _ _ Hj) as Hid. apply find_job_in in Hj. apply l_jold in Hj. unfold i0 in Hj. lia.
    + change (given_out (t_id t) l) with (given (t_id t) l). rewrite Hg. unfold takes. assert (Nd : NoDup (map t_id ts)) by exact (c_nodup O i0 _ _ _ _ _ _ _ HC).
      rewrite (kfind_in t_id ts t Nd Ht). unfold taken, plain, container.
      destruct (t_state t); try reflexivity; destruct (t_parallel t), (t_each t), (t_subjob t); reflexivity.
  - intros i Hno. change (given_out i l) with (given i l). rewrite Hg. unfold takes. destruct (kfind t_id i ts) as [u|] eqn:E; [|reflexivity]. exfalso.
    apply kfind_some in E as [Hu Ei]. exact (Hno u (in_or_app _ _ _ (or_intror Hu)) (Own u Hu) Ei).
Qed.

End Run.

(** Take any reachable deployment [w0] and run it from there: at every step [n] either a job [e n] is submitted, or one of the messages in
    flight, any one, is consumed (messages from before are not).  If at some point no more jobs are submitted, then after finitely many messages there is none
    left, for good; every job submitted meanwhile, and every job they started, is COMPLETED, and every task of theirs is COMPLETED or was SKIPPED. *)
Theorem C72_every_job_completes : forall O b w0 r e,
  reachable O (mkConfig w0 []) -> completes_all b -> registered b w0 ->
  r 0%nat = mkRunning w0 [] 0 -> (forall n, moves O b (e n) (r n) (r (S n))) ->
  (exists N, forall n, (N <= n)%nat -> e n = None) ->
  exists n, forall m, (n <= m)%nat ->
    r m = r n /\ r_flight (r m) = [] /\
    (forall k d, e k = Some d -> exists j, find_job (w_fresh (r_world (r k))) (r_world (r m)) = Some j /\ j_state j = JCompleted) /\
    new_jobs (w_fresh w0) (r_world (r m)) (fun j => j_state j = JCompleted) /\
    new_tasks (w_fresh w0) (r_world (r m)) (fun t => t_state t = TCompleted \/ t_state t = TSkipped).
Proof. intros O b w0 r e HR Hb Hn H0 Hm HN. exact (l_completes O b w0 r e HR Hb Hn H0 Hm HN). Qed.
Print Assumptions C72_every_job_completes.

(** At no time is one of these jobs failed or cancelled, or one of their tasks failed, stopped or cancelled (whether submissions end or not). *)
Theorem C72_nothing_fails : forall O b w0 r e,
  reachable O (mkConfig w0 []) -> completes_all b -> registered b w0 ->
  r 0%nat = mkRunning w0 [] 0 -> (forall n, moves O b (e n) (r n) (r (S n))) ->
  forall n,
    new_jobs (w_fresh w0) (r_world (r n)) (fun j => In (j_state j) [JPending; JScheduled; JRunning; JCompleted]) /\
    new_tasks (w_fresh w0) (r_world (r n)) (fun t => In (t_state t) [TCreated; TPending; TScheduled; TRunning; TCompleted; TSkipped]).
Proof. intros O b w0 r e HR Hb Hn H0 Hm n. exact (l_states O b w0 r e HR Hb Hn H0 Hm n). Qed.
Print Assumptions C72_nothing_fails.

(** The run is one of the machine's: what is proved of all executions holds along it. *)
Theorem C72_is_an_execution : forall O b w0 r e,
  reachable O (mkConfig w0 []) -> completes_all b -> registered b w0 ->
  r 0%nat = mkRunning w0 [] 0 -> (forall n, moves O b (e n) (r n) (r (S n))) ->
  forall n, reachable O (mkConfig (r_world (r n)) []).
Proof. intros O b w0 r e HR Hb Hn H0 Hm n. exact (proj1 (l_reach O b w0 r e HR Hb Hn H0 Hm n)). Qed.
Print Assumptions C72_is_an_execution.

(** ** C73: every task is executed once *)
(** At every moment of such a run, a task that is not a container has been put on a worker queue exactly once if it is SCHEDULED, RUNNING or COMPLETED, and never
    if it is CREATED, PENDING or was SKIPPED; a container never is. *)
Theorem C73_handed_once : forall O b w0 r e,
  reachable O (mkConfig w0 []) -> completes_all b -> registered b w0 ->
  r 0%nat = mkRunning w0 [] 0 -> (forall n, moves O b (e n) (r n) (r (S n))) ->
  forall n t, In t (w_tasks (r_world (r n))) -> (w_fresh w0 <= t_job t)%N ->
    given_out (t_id t) (since w0 (r_world (r n))) = match t_state t with TScheduled | TRunning | TCompleted => if container t then 0%nat else 1%nat | _ => 0%nat end.
Proof. intros O b w0 r e HR Hb Hn H0 Hm n. exact (proj1 (l_handed O b w0 r e HR Hb Hn H0 Hm n)). Qed.
Print Assumptions C73_handed_once.
(** Nothing else is put on a worker queue: no task of an older job, and none that is not stored. *)
Theorem C73_nothing_else : forall O b w0 r e,
  reachable O (mkConfig w0 []) -> completes_all b -> registered b w0 ->
  r 0%nat = mkRunning w0 [] 0 -> (forall n, moves O b (e n) (r n) (r (S n))) ->
  forall n i, (forall t, In t (w_tasks (r_world (r n))) -> (w_fresh w0 <= t_job t)%N -> t_id t <> i) -> given_out i (since w0 (r_world (r n))) = 0%nat.
Proof. intros O b w0 r e HR Hb Hn H0 Hm n. exact (proj2 (l_handed O b w0 r e HR Hb Hn H0 Hm n)). Qed.
Print Assumptions C73_nothing_else.
(** When the run is over, every task of the jobs submitted was executed exactly once, except containers and skipped tasks, which never were. *)
Theorem C73_exactly_once : forall O b w0 r e,
  reachable O (mkConfig w0 []) -> completes_all b -> registered b w0 ->
  r 0%nat = mkRunning w0 [] 0 -> (forall n, moves O b (e n) (r n) (r (S n))) ->
  (exists N, forall n, (N <= n)%nat -> e n = None) ->
  exists n, forall m, (n <= m)%nat -> r_flight (r m) = [] /\
    forall t, In t (w_tasks (r_world (r m))) -> (w_fresh w0 <= t_job t)%N ->
      (t_state t = TCompleted /\ given_out (t_id t) (since w0 (r_world (r m))) = if container t then 0%nat else 1%nat) \/
      (t_state t = TSkipped /\ given_out (t_id t) (since w0 (r_world (r m))) = 0%nat).
Proof.
  intros O b w0 r e HR Hb Hn H0 Hm HN. destruct (C72_every_job_completes O b w0 r e HR Hb Hn H0 Hm HN) as (n & H). exists n. intros m Hnm. destruct (H m Hnm) as (_ & F & _ & _ & T). split; [exact F|].
  intros t Ht Hi. pose proof (C73_handed_once O b w0 r e HR Hb Hn H0 Hm m t Ht Hi) as K. destruct (T t Ht Hi) as [E|E]; rewrite E in K; [left|right]; split; assumption.
Qed.
Print Assumptions C73_exactly_once.

(** ** Non-vacuity *)
(** a run in which the newest message is always consumed first (the other extreme from C59), for any submissions *)
Fixpoint newest (O : oracle) (b : behaviour) (w0 : world) (e : nat -> option job) (n : nat) : running :=
  match n with
  | 0%nat => mkRunning w0 [] 0
  | S n =>
      let s := newest O b w0 e n in
      let w1 := r_world s <| w_clock := b_clock b (r_steps s) |> <| w_faults := [] |> in
      match e n with
      | Some d => let w' := fst (run (api_submit d) w1) in mkRunning w' (r_flight s ++ since (r_world s) w') (S (r_steps s))
      | None =>
          match rev (r_flight s) with
          | [] => s
          | m :: l => let w' := consume O b (r_steps s) m w1 in mkRunning w' (rev l ++ [] ++ since (r_world s) w') (S (r_steps s))
          end
      end
  end.
Lemma newest_moves O b w0 e : (forall n d, e n = Some d -> submittable O d) -> forall n, moves O b (e n) (newest O b w0 e n) (newest O b w0 e (S n)).
Proof.
  intros He n. cbn [newest]. cbv zeta. destruct (newest O b w0 e n) as [w l k]. cbn [r_world r_flight r_steps]. destruct (e n) as [d|] eqn:E.
  - apply (moves_submit O b d w l k _ _ eq_refl (He n d E) eq_refl).
  - destruct (rev l) as [|m l'] eqn:El.
    + apply (f_equal (@rev msg)) in El. rewrite rev_involutive in El. subst l. apply moves_rest.
    + apply (f_equal (@rev msg)) in El. rewrite rev_involutive in El. cbn [rev] in El. subst l. exact (moves_consume O b w (rev l') m [] k _ _ eq_refl eq_refl).
Qed.

Definition node7 : node := mkNode 7%N "n" 0 0 0 "x-7" NUp "h" 8001 0 "1".
(** an empty deployment where one worker has registered *)
Definition one_node : world := fst (run (deliver O0 1 (MHeartbeat node7)) (empty_world 0 [] <| w_hist := [MHeartbeat node7] |>)).
Lemma one_node_reachable : reachable O0 (mkConfig one_node []).
Proof.
  assert (H : reachable O0 (mkConfig (empty_world 0 [] <| w_hist := w_hist (empty_world 0 []) ++ [MHeartbeat node7] |>) [])).
  { apply emit_reachable; [|apply env_heartbeat; reflexivity]. exists (mkConfig (empty_world 0 []) []), []. split; [exists 0, []; reflexivity|constructor]. }
  exact (run_reachable O0 _ (MHeartbeat node7) H (or_introl eq_refl)).
Qed.
Lemma one_node_registered : registered steady one_node.
Proof. intros k t. exists node7. reflexivity. Qed.

(** tasks of every kind, nested, one with a false condition; two such jobs, the second submitted while the first is running *)
Definition fan (l : list task) : task := blank_task <| t_name := "fan" |> <| t_parallel := Some (mkParallel l 0) |>.
Definition loop (k : Z) (t : task) : task := blank_task <| t_name := "loop" |> <| t_each := Some (mkEach "item" "{{ list }}" t 0 0 k 0) |>.
Definition child (dt : bool) (l : list task) : task := blank_task <| t_name := "child" |> <| t_subjob := Some (mkSubJob noid "child" "" l [] [] None "" dt []) |>.
Definition shape_tasks : list task :=
  [ simple "a"; fan [simple "b"; simple "c" <| t_if := "false" |>; loop 2 (simple "d")]; loop 0 (fan [simple "e"; child false [simple "f"; simple "g"]]);
    child true [simple "h"]; child false [loop 1 (simple "i")] ].
Definition shapes : job := demo_job shape_tasks.
Definition two (n : nat) : option job := if Nat.eqb n 0 then Some shapes else if Nat.eqb n 9 then Some shapes else None.
Lemma plain_evaluates (P : string -> Prop) s : P s -> evaluates O0 P s.
Proof. cofix IH. intros H. apply evaluates_intro; [exact H|]. intros c it. exists s. split; [reflexivity|apply IH; exact H]. Qed.
Lemma plain_any s : evaluates O0 any_string s. Proof. apply plain_evaluates. exact I. Qed.
Lemma simple_pristine nm : pristine (simple nm). Proof. repeat split. Qed.
Lemma fan_pristine l : Forall pristine l -> pristine (fan l).
Proof. intros H. apply pristine_eq. repeat (split; [first [reflexivity|exact I|left; reflexivity]|]). cbn. split; [split; [reflexivity|exact H]|split; exact I]. Qed.
Lemma loop_pristine k t : pristine t -> pristine (loop k t).
Proof. intros H. apply pristine_eq. repeat (split; [first [reflexivity|exact I|left; reflexivity]|]). cbn. split; [|exact I]. repeat (split; [reflexivity|]). exact H. Qed.
Lemma child_pristine dt l : Forall pristine l -> pristine (child dt l).
Proof. intros H. apply pristine_eq. repeat (split; [first [reflexivity|exact I|left; reflexivity]|]). exact H. Qed.
Lemma shapes_accepted : accepted shapes.
Proof.
  split; [discriminate|]. split; [|exact I].
  change (Forall pristine shape_tasks). unfold shape_tasks. repeat match goal with
    | |- Forall _ [] => apply Forall_nil
    | |- Forall _ (_ :: _) => apply Forall_cons
    | |- pristine (fan _) => apply fan_pristine
    | |- pristine (loop _ _) => apply loop_pristine
    | |- pristine (child _ _) => apply child_pristine
    | |- pristine (simple _) => apply simple_pristine
    | _ => exact (simple_pristine "c") end.
Qed.
Lemma shapes_submittable : submittable O0 shapes.
Proof.
  split; [exact shapes_accepted|].
  split; [|split; [intros c; eexists; reflexivity|left; reflexivity]].
  assert (Q : evaluates O0 worker_queue "") by (apply plain_evaluates; left; reflexivity).
  assert (Z0 : 0 <= 0) by lia. assert (Z1 : 0 <= 1) by lia. assert (Z2 : 0 <= 2) by lia.
  repeat (apply Forall_cons; [cbn; repeat match goal with
    | |- _ /\ _ => split
    | |- evaluates _ any_string _ => apply plain_any
    | |- True => exact I
    | |- values _ [] => apply Forall_nil
    | |- Forall _ [] => apply Forall_nil
    | |- _ :: _ <> [] => discriminate
    | |- output_evaluates _ _ => intros c; eexists; reflexivity
    | |- forall c, exists _ _, _ => intros c; do 2 eexists; reflexivity
    | _ => assumption end|]). apply Forall_nil.
Qed.
Lemma two_submittable n d : two n = Some d -> submittable O0 d.
Proof. unfold two. destruct (Nat.eqb n 0); [|destruct (Nat.eqb n 9); [|discriminate]]; intros E; injection E as <-; exact shapes_submittable. Qed.
Example C72_nonvacuous : let r := newest O0 steady one_node two in
  reachable O0 (mkConfig one_node []) /\ completes_all steady /\ registered steady one_node /\ r 0%nat = mkRunning one_node [] 0 /\
  (forall n, moves O0 steady (two n) (r n) (r (S n))) /\ exists N, forall n, (N <= n)%nat -> two n = None.
Proof.
  cbn zeta. split; [exact one_node_reachable|]. split; [exact steady_completes|]. split; [exact one_node_registered|]. split; [reflexivity|].
  split; [exact (newest_moves O0 steady one_node two two_submittable)|]. exists 10%nat. intros n Hn. unfold two.
  destruct (Nat.eqb n 0) eqn:E0; [apply Nat.eqb_eq in E0; lia|]. destruct (Nat.eqb n 9) eqn:E9; [apply Nat.eqb_eq in E9; lia|]. reflexivity.
Qed.
(** the two jobs and their ten sub-jobs after 286 steps: 62 tasks, of which two were skipped *)
Example C72_example : exists s, newest O0 steady one_node two 286 = s /\ r_flight s = [] /\ (length (w_jobs (r_world s)) = 12)%nat /\
  (length (w_tasks (r_world s)) = 62)%nat /\ (length (filter (fun t => tstate_eqb (t_state t) TSkipped) (w_tasks (r_world s))) = 2)%nat.
Proof. eexists. split; [vm_compute; reflexivity|]. vm_compute. auto. Qed.

(** of these tasks 36 are no containers and were executed, once each *)
Example C73_example : let s := newest O0 steady one_node two 286 in
  (length (filter (fun t => tstate_eqb (t_state t) TCompleted && negb (container t))%bool (w_tasks (r_world s))) = 36)%nat /\
  (length (filter (fun m => match m with MTask q _ => is_task_queue q | _ => false end) (since one_node (r_world s))) = 36)%nat.
Proof. vm_compute. split; reflexivity. Qed.

(** ** What the hypotheses exclude *)
(** jobs whose only task is a parallel task without tasks, or an each task over an empty list, are never completed: nothing is in flight and the job is RUNNING *)
Definition Oempty : oracle := mkOracle unit (o_tmpl O0) (fun _ _ => inl (Some [])) (o_dur O0).
Definition only (d : job) (n : nat) : option job := if Nat.eqb n 0 then Some d else None.
Theorem C72_no_tasks_refuted : let s := newest O0 steady one_node (only (demo_job [fan []])) 9 in
  r_flight s = [] /\ map j_state (w_jobs (r_world s)) = [JScheduled] /\ map t_state (w_tasks (r_world s)) = [TRunning].
Proof. vm_compute. repeat split; reflexivity. Qed.
Theorem C72_no_elements_refuted : let s := newest Oempty steady one_node (only (demo_job [loop 0 (simple "d")])) 9 in
  r_flight s = [] /\ map j_state (w_jobs (r_world s)) = [JScheduled] /\ map t_state (w_tasks (r_world s)) = [TRunning].
Proof. vm_compute. repeat split; reflexivity. Qed.
(** a worker whose start report is handled before its first heartbeat, and after the completion of the sub-job it works for: the coordinator does not find the worker
    it wants to tell, takes that for a failure of the task, and fails the job that waits for the COMPLETED sub-job *)
Definition unregistered_run : running := newest O0 steady (empty_world 0 []) (only (demo_job [fan [simple "z"; child false [simple "f"]]])) 40.
Theorem C72_unregistered_refuted :
  r_flight unregistered_run = [] /\ map (fun j => (j_id j, j_parent j, j_state j)) (w_jobs (r_world unregistered_run)) = [(1%N, 0%N, JFailed); (5%N, 4%N, JCompleted)].
Proof. vm_compute. split; reflexivity. Qed.
