(** Property theorems about composite tasks when they are scheduled: C10 (each), parallel fan-out, C22/C23 (sub-jobs).
    The handler runs alone, without faults, in any reachable state. *)
From Verif Require Import SeqTools InvSched InvMsgs Sim PropsSched.
Open Scope string_scope.
Open Scope list_scope.
Open Scope Z_scope.

(** ** C10 *)
(** the child for element number [k] of the each task [t], of evaluated definition [d], which got the identifier [i] *)
Definition child_from (t : task) (e : eachT task) (clk : time) (k : nat) (d : task) (i : id) : task :=
  identity i (t_job t) (t_id t) (if (e_concurrency e =? 0) || (Z.of_nat k <? e_concurrency e) then TPending else TCreated)
    (t_position t) (Some clk) d.
(** the child for element number [k] (of value [x]), evaluated on its own *)
Definition each_child (O : oracle) (t : task) (e : eachT task) (j : job) (clk : time) (k : nat) (x : o_val O) (i : id) (c : task) : Prop :=
  exists d, instance_of O (j_context j) (first_set [e_var e; "item"]) k x (e_task e) d /\ c = child_from t e clk k d i.

Lemma write_cmds_identity def i jb pa s pos cr d : write_cmds def (identity i jb pa s pos cr d) = write_cmds def d.
Proof. destruct def, d; reflexivity. Qed.

Section Each.
Variables (O : oracle) (t : task) (e : eachT task) (j : job) (clk : time).

Fixpoint kids (k : nat) (i : N) (ds : list task) : list task :=
  match ds with [] => [] | d :: r => child_from t e clk k d i :: kids (S k) (N.succ i) r end.

Definition firedb (k : nat) : bool := (e_concurrency e =? 0) || (Z.of_nat k <? e_concurrency e).
(** the published ones *)
Fixpoint pubs (k : nat) (cs : list task) : list task :=
  match cs with [] => [] | c :: r => if firedb k then c :: pubs (S k) r else pubs (S k) r end.

Lemma each_run def k l ds : j_id j = t_job t -> instances O (j_context j) (first_set [e_var e; "item"]) k def l ds ->
  forall w, w_faults w = [] -> ids_below w -> (exists j', find_job (t_job t) w = Some j') ->
  run (each_children O t e j clk def (Z.of_nat k) l) w = (spawned w (kids k (w_fresh w) ds) (pubs k (kids k (w_fresh w) ds)), Ok tt).
Proof.
  intros Hj Hi. induction Hi as [k def|k def x l d ds Hd Hi IH]; intros w Hf Hb Hex.
  - cbn [each_children kids pubs]. now rewrite spawned_nil.
  - cbn [each_children]. rewrite run_bind, run_new_id. rewrite Hj. fold (firedb k).
    set (w1 := w <| w_fresh := N.succ (w_fresh w) |>).
    match goal with |- context [evaluate_each_task O ?et _ _ _ _] => change et with (identity (w_fresh w) (t_job t) (t_id t) (if each_fired e (Z.of_nat k) then TPending else TCreated) (t_position t) (Some clk) (clone_task def)) end.
    unfold evaluate_each_task. rewrite eval_identity. rewrite <- orelse_first in Hd. unfold instance_of in Hd. rewrite Hd.
    change (each_fired e (Z.of_nat k)) with (firedb k). cbn iota. rewrite write_cmds_identity.
    set (c := identity _ _ _ _ _ _ d).
    rewrite run_bind. destruct Hex as (j' & Ej').
    erewrite run_create_task; [|exact Hf| |exact Ej'].
    2:{ unfold w1. change (find_task (w_fresh w) w = None). now apply fresh_not_found. }
    set (w2 := w1 <| w_tasks := w_tasks w1 ++ [db_task c] |>).
    assert (Hb2 : ids_below w2) by (apply (ids_below_step w c); [exact Hb|reflexivity]).
    set (w3 := w2 <| w_hist := w_hist w2 ++ (if firedb k then [MTask QUEUE_PENDING c] else []) |>).
    assert (E3 : run (if firedb k then publish_task QUEUE_PENDING c else ret tt) w2 = (w3, Ok tt)).
    { unfold w3. destruct (firedb k); [unfold publish_task; rewrite run_publish by exact Hf; reflexivity|].
      rewrite run_ret. f_equal. apply world_eq; try reflexivity. cbn. now rewrite app_nil_r. }
    rewrite run_bind, E3. replace (Z.of_nat k + 1) with (Z.of_nat (S k)) by lia.
    rewrite (IH w3 Hf Hb2 (ex_intro _ j' Ej')).
    f_equal. cbn [kids pubs]. unfold w3, w2, w1. etransitivity; [|apply (spawned_cons w c (kids (S k) (N.succ (w_fresh w)) ds) (pubs (S k) (kids (S k) (N.succ (w_fresh w)) ds)) (firedb k))]. reflexivity.
Qed.

Lemma kids_length ds : forall k i, length (kids k i ds) = length ds.
Proof. induction ds; intros; cbn; auto. Qed.
Lemma kids_nth ds : forall k i n c, nth_error (kids k i ds) n = Some c ->
  exists d, nth_error ds n = Some d /\ c = child_from t e clk (k + n) d (i + N.of_nat n)%N.
Proof.
  induction ds as [|d ds IH]; intros k i [|n] c E; cbn in E; try discriminate.
  - injection E as <-. exists d. split; [reflexivity|]. now rewrite Nat.add_0_r, N.add_0_r.
  - destruct (IH _ _ n c E) as (y & Ey & Hy). exists y. split; [exact Ey|].
    replace (k + S n)%nat with (S k + n)%nat by lia. replace (i + N.of_nat (S n))%N with (N.succ i + N.of_nat n)%N by lia. exact Hy.
Qed.
Lemma pubs_firstn cs : forall k,
  pubs k cs = if e_concurrency e =? 0 then cs else firstn (Z.to_nat (e_concurrency e) - k) cs.
Proof.
  induction cs as [|c cs IH]; intros k; cbn [pubs].
  - destruct (e_concurrency e =? 0); [|rewrite firstn_nil]; reflexivity.
  - unfold firedb. rewrite IH. destruct (e_concurrency e =? 0) eqn:E0; [reflexivity|]. cbn [orb]. apply Z.eqb_neq in E0.
    destruct (Z.of_nat k <? e_concurrency e) eqn:E1.
    + apply Z.ltb_lt in E1. replace (Z.to_nat (e_concurrency e) - k)%nat with (S (Z.to_nat (e_concurrency e) - S k)) by lia. reflexivity.
    + apply Z.ltb_ge in E1. replace (Z.to_nat (e_concurrency e) - k)%nat with 0%nat by lia.
      replace (Z.to_nat (e_concurrency e) - S k)%nat with 0%nat by lia. reflexivity.
Qed.
Lemma pubs_released cs : pubs 0 cs = firstn (released_at_once (e_concurrency e) (length cs)) cs.
Proof.
  rewrite pubs_firstn. unfold released_at_once. destruct (e_concurrency e =? 0); [symmetry; apply firstn_all|].
  rewrite Nat.sub_0_r. destruct (Nat.le_ge_cases (Z.to_nat (e_concurrency e)) (length cs)).
  - rewrite Nat.min_l by lia. reflexivity.
  - rewrite Nat.min_r by lia. rewrite firstn_all. apply firstn_all2. lia.
Qed.
End Each.

Lemma instances_length O c var k def l ds : instances O c var k def l ds -> length ds = length l.
Proof. induction 1; cbn; auto. Qed.

(** For every definition: one child per element, in order, each evaluated with its own element but with
    the commands as the evaluation of the previous children left them. *)
Theorem C10_each_shares_commands : forall O c fuel t e j l ds,
  reachable O c -> w_faults (cw c) = [] -> In (MTask QUEUE_PENDING t) (w_hist (cw c)) ->
  ~ false_padded (t_if t) -> t_parallel t = None -> t_each t = Some e ->
  find_job (t_job t) (cw c) = Some j -> o_list O (j_context j) (e_list e) = inl (Some l) ->
  instances O (j_context j) (first_set [e_var e; "item"]) 0 (e_task e) l ds ->
  exists w' cs u u' eu eu',
    run (deliver O fuel (MTask QUEUE_PENDING t)) (cw c) = (w', Ok tt) /\
    (* one child per element, in order *)
    length cs = length l /\
    (forall k ch, nth_error cs k = Some ch -> exists d, nth_error ds k = Some d /\
       ch = child_from t e (w_clock (cw c)) k d (w_fresh (cw c) + N.of_nat k)%N) /\
    (* stored, after the parent became RUNNING with that many elements *)
    find_task (t_id t) (cw c) = Some u /\ t_each u = Some eu /\
    u' = u <| t_state := TRunning |> <| t_scheduled := Some (w_clock (cw c)) |> <| t_started := Some (w_clock (cw c)) |> <| t_each := Some eu' |> /\
    eu' = eu <| e_size := Z.of_nat (length l) |> <| e_index := e_concurrency eu |> /\
    added (cw c) (put_task u' (w_tasks (cw c))) cs w' /\
    (* the first ones published *)
    published (cw c) w' (map (MTask QUEUE_PENDING) (firstn (released_at_once (e_concurrency e) (length l)) cs)) /\
    same_jobs (cw c) w'.
Proof.
  intros O c fuel t e j l ds HR Hf Hin Hif Hp He Hj Hl Hev.
  pose proof (reachable_inv _ _ HR) as HI. pose proof (inv_hist _ HI _ Hin) as (Hok & u & Hu & Hab).
  set (w := cw c) in *.
  assert (Heu : exists eu, t_each u = Some eu).
  { destruct Hab as (_ & _ & _ & _ & _ & H & _). rewrite He in H. destruct (t_each u); [eauto|discriminate]. }
  destruct Heu as (eu & Heu). pose proof (find_job_id _ _ _ Hj) as Hji.
  set (u' := u <| t_state := TRunning |> <| t_scheduled := Some (w_clock w) |> <| t_started := Some (w_clock w) |>
               <| t_each := Some (eu <| e_size := Z.of_nat (length l) |> <| e_index := e_concurrency eu |>) |>).
  set (w1 := w <| w_tasks := put_task u' (w_tasks w) |>).
  assert (Hb1 : ids_below w1).
  { intros x Hx. change (w_fresh w1) with (w_fresh w). apply (in_map t_id) in Hx. cbn in Hx. rewrite map_id_put_task in Hx.
    apply in_map_iff in Hx as (y & <- & Hy). now apply Inv_ids_below. }
  pose proof (each_run O t e j (w_clock w) _ _ _ _ Hji Hev w1 Hf Hb1 (ex_intro _ j Hj)) as Hr.
  change (w_fresh w1) with (w_fresh w) in Hr. set (cs := kids t e (w_clock w) 0 (w_fresh w) ds) in *.
  exists (spawned w1 cs (pubs e 0 cs)), cs, u, u', eu. eexists.
  split.
  { rewrite deliver_pending. unfold task_wrapper. rewrite run_catch. unfold pending_handler.
    destruct (String.eqb (trim_space (t_if t)) "false") eqn:Ef; [apply String.eqb_eq in Ef; apply trim_false in Ef; contradiction|].
    unfold schedule_task. rewrite Hp, He. unfold schedule_each. rewrite run_bind, run_now, run_bind, run_get_job, Hj by exact Hf.
    rewrite Hl, run_bind. erewrite run_update_task; [|exact Hf|exact Hu|unfold mark_each_running; rewrite Heu; reflexivity].
    change 0 with (Z.of_nat 0). fold u'. fold w1. rewrite Hr. reflexivity. }
  assert (Hlen : length cs = length l) by (unfold cs; rewrite kids_length; apply (instances_length _ _ _ _ _ _ _ Hev)).
  split; [exact Hlen|]. split; [intros k ch Ek; apply (kids_nth _ _ _ _ _ _ k ch Ek)|].
  split; [exact Hu|]. split; [exact Heu|]. split; [reflexivity|]. split; [reflexivity|]. split; [reflexivity|].
  split; [|reflexivity]. unfold published, spawned. cbn [w_hist]. rewrite pubs_released. rewrite Hlen. reflexivity.
Qed.
Print Assumptions C10_each_shares_commands.

(** A definition without templated commands: nothing is shared. *)
Lemma fold_and {A} (P : A -> Prop) l : fold_right and True (map P l) <-> Forall P l.
Proof. induction l; cbn; split; auto; [intros [? ?]; constructor; tauto|inversion 1; tauto]. Qed.
Lemma eval_strings_plain f l : (forall s, In s l -> f s = inl s) -> eval_strings f l = inl l.
Proof.
  induction l as [|s l IH]; intros H; cbn; [reflexivity|]. rewrite (H s) by (left; reflexivity).
  rewrite IH; [reflexivity|]. intros x Hx. apply H. now right.
Qed.
Lemma zip_plain f l : Forall (fun p => plain_commands f p -> forall d, eval_task f (clone_task p) = inl d -> write_cmds p d = p) l ->
  fold_right and True (map (plain_commands f) l) ->
  forall m, eval_list (eval_task f) (map clone_task l) = inl m -> zip_tasks write_cmds l m = l.
Proof.
  intros HF HP m E. apply fold_and in HP. apply eval_list_forall2 in E.
  revert HF HP m E. induction l as [|p l IH]; intros HF HP m E; [reflexivity|].
  inversion HF; inversion HP; subst. cbn in E. inversion E as [|? d ? m' Ed Em]; subst. cbn. f_equal; auto.
Qed.
Lemma plain_write f t : plain_commands f t -> forall d, eval_task f (clone_task t) = inl d -> write_cmds t d = t.
Proof.
  induction t as [t (IHpre & IHpost & _ & IHp & _ & _)] using task_nested_ind.
  intros HP d E. apply eval_task_frame in E as (?&?&?&?&?&?&pr&po&pa&cm&?& -> & _ & _ & _ & _ & _ & _ & Epr & Epo & Epa & Ecm & _).
  destruct t. cbn in *. destruct HP as (Hc & H1 & H2 & H3).
  rewrite (eval_strings_plain f t_cmd Hc) in Ecm. injection Ecm as <-.
  rewrite (zip_plain f t_pre IHpre H1 pr Epr), (zip_plain f t_post IHpost H2 po Epo).
  destruct t_parallel as [p|]; [|reflexivity]. destruct Epa as (ts & Ets & ->). cbn in *.
  rewrite (zip_plain f (p_tasks p) (IHp p eq_refl) H3 ts Ets). destruct p; reflexivity.
Qed.
Lemma plain_instances O c var def l : forall k,
  (forall n x, nth_error l n = Some x -> plain_commands (o_tmpl O c (Some (var, Z.of_nat (k + n), x))) def /\
     exists d, instance_of O c var (k + n) x def d) ->
  exists ds, instances O c var k def l ds /\
    forall n d, nth_error ds n = Some d -> exists x, nth_error l n = Some x /\ instance_of O c var (k + n) x def d.
Proof.
  induction l as [|x l IH]; intros k H.
  - exists []. split; [constructor|]. intros [|n] d; discriminate.
  - destruct (H 0%nat x eq_refl) as (Hp & d & Hd). rewrite Nat.add_0_r in *.
    destruct (IH (S k)) as (ds & Hds & Hn).
    { intros n y Hy. replace (S k + n)%nat with (k + S n)%nat by lia. now apply H. }
    exists (d :: ds). split.
    + constructor; [exact Hd|]. rewrite (plain_write _ _ Hp d Hd). exact Hds.
    + intros [|n] d' E; cbn in E.
      * injection E as <-. exists x. rewrite Nat.add_0_r. auto.
      * destruct (Hn n d' E) as (y & Ey & Hy). exists y. split; [exact Ey|]. now replace (k + S n)%nat with (S k + n)%nat by lia.
Qed.

Theorem C10_each_fans_out : forall O c fuel t e j l,
  reachable O c -> w_faults (cw c) = [] -> In (MTask QUEUE_PENDING t) (w_hist (cw c)) ->
  ~ false_padded (t_if t) -> t_parallel t = None -> t_each t = Some e ->
  find_job (t_job t) (cw c) = Some j -> o_list O (j_context j) (e_list e) = inl (Some l) ->
  (forall k x, nth_error l k = Some x ->
     plain_commands (o_tmpl O (j_context j) (Some (first_set [e_var e; "item"], Z.of_nat k, x))) (e_task e) /\
     exists d, instance_of O (j_context j) (first_set [e_var e; "item"]) k x (e_task e) d) ->
  exists w' cs u u' eu eu',
    run (deliver O fuel (MTask QUEUE_PENDING t)) (cw c) = (w', Ok tt) /\
    (* one child per element, in order *)
    length cs = length l /\
    (forall k ch, nth_error cs k = Some ch -> exists x, nth_error l k = Some x /\
       each_child O t e j (w_clock (cw c)) k x (w_fresh (cw c) + N.of_nat k)%N ch) /\
    (* stored, after the parent became RUNNING with that many elements *)
    find_task (t_id t) (cw c) = Some u /\ t_each u = Some eu /\
    u' = u <| t_state := TRunning |> <| t_scheduled := Some (w_clock (cw c)) |> <| t_started := Some (w_clock (cw c)) |> <| t_each := Some eu' |> /\
    eu' = eu <| e_size := Z.of_nat (length l) |> <| e_index := e_concurrency eu |> /\
    added (cw c) (put_task u' (w_tasks (cw c))) cs w' /\
    (* the first ones published *)
    published (cw c) w' (map (MTask QUEUE_PENDING) (firstn (released_at_once (e_concurrency e) (length l)) cs)) /\
    same_jobs (cw c) w'.
Proof.
  intros O c fuel t e j l HR Hf Hin Hif Hp He Hj Hl Hev.
  destruct (plain_instances O (j_context j) (first_set [e_var e; "item"]) (e_task e) l 0 Hev) as (ds & Hds & Hn).
  destruct (C10_each_shares_commands O c fuel t e j l ds HR Hf Hin Hif Hp He Hj Hl Hds)
    as (w' & cs & u & u' & eu & eu' & H1 & H2 & H3 & H4).
  exists w', cs, u, u', eu, eu'. split; [exact H1|]. split; [exact H2|]. split; [|exact H4].
  intros k ch Ek. destruct (H3 k ch Ek) as (d & Ed & ->). destruct (Hn k d Ed) as (x & Ex & Hx). exists x. split; [exact Ex|].
  exists d. auto.
Qed.
Print Assumptions C10_each_fans_out.

Definition each_task (k : Z) : task := blank_task <| t_name := "each" |> <| t_each := Some (mkEach "" "xs" (simple "body") 0 0 k 0) |>.
Example C10_nonvacuous : exists c t e j l, reachable O0 c /\ w_faults (cw c) = [] /\ In (MTask QUEUE_PENDING t) (w_hist (cw c)) /\
  ~ false_padded (t_if t) /\ t_parallel t = None /\ t_each t = Some e /\ e_concurrency e = 2 /\
  find_job (t_job t) (cw c) = Some j /\ o_list O0 (j_context j) (e_list e) = inl (Some l) /\ length l = 3%nat /\
  (forall k x, nth_error l k = Some x ->
     plain_commands (o_tmpl O0 (j_context j) (Some (first_set [e_var e; "item"], Z.of_nat k, x))) (e_task e) /\
     exists d, instance_of O0 (j_context j) (first_set [e_var e; "item"]) k x (e_task e) d).
Proof.
  exists (sim_c O0 start [CApi (OSubmit (demo_job [simple "a"; each_task 2])); CRun 0 100; CDeliver 0; CRun 1 100; CComplete 1 "r"; CDeliver 2; CRun 2 100]).
  do 4 eexists. split; [apply sim_c_reachable; [repeat (constructor; [cbn; unfold accepted; cbn; repeat split; repeat constructor; easy|]); try constructor|reflexivity]|].
  split; [reflexivity|]. split; [vm_compute; right; right; right; left; reflexivity|].
  split; [intros H; apply trim_false in H; vm_compute in H; discriminate|]. do 5 (split; [vm_compute; reflexivity|]). split; [reflexivity|].
  intros k x _. split; [vm_compute; intuition|]. eexists. vm_compute. reflexivity.
Qed.

(** Consequence: once a command contains nothing more to evaluate, every later child has the command of
    the first one, whatever its own element. *)
Lemma instance_cmd O c var k x def d : instance_of O c var k x def d ->
  eval_strings (o_tmpl O c (Some (var, Z.of_nat k, x))) (t_cmd def) = inl (t_cmd d).
Proof.
  unfold instance_of. intros E. apply eval_task_frame in E as (?&?&?&?&?&?&?&?&?&cm&?& -> & _ & _ & _ & _ & _ & _ & _ & _ & _ & Ecm & _).
  destruct def. cbn in *. exact Ecm.
Qed.
Lemma later_commands O c var k def l ds cm : instances O c var k def l ds -> t_cmd def = cm ->
  (forall n x s, In s cm -> o_tmpl O c (Some (var, n, x)) s = inl s) -> Forall (fun d => t_cmd d = cm) ds.
Proof.
  intros H. revert cm. induction H as [k def|k def x l d ds Hd _ IH]; intros cm Hc Hs; [constructor|].
  apply instance_cmd in Hd. rewrite Hc, eval_strings_plain in Hd by (intros s Hin; now apply Hs). injection Hd as Hd.
  constructor; [now symmetry|]. apply IH; [|exact Hs]. rewrite Hd. destruct def; reflexivity.
Qed.
Theorem C10_first_command_for_all_refuted : forall O c fuel t e j x l d ds,
  reachable O c -> w_faults (cw c) = [] -> In (MTask QUEUE_PENDING t) (w_hist (cw c)) ->
  ~ false_padded (t_if t) -> t_parallel t = None -> t_each t = Some e ->
  find_job (t_job t) (cw c) = Some j -> o_list O (j_context j) (e_list e) = inl (Some (x :: l)) ->
  instances O (j_context j) (first_set [e_var e; "item"]) 0 (e_task e) (x :: l) (d :: ds) ->
  (forall n y s, In s (t_cmd d) -> o_tmpl O (j_context j) (Some (first_set [e_var e; "item"], n, y)) s = inl s) ->
  exists w' cs u', run (deliver O fuel (MTask QUEUE_PENDING t)) (cw c) = (w', Ok tt) /\
    length cs = S (length l) /\ added (cw c) (put_task u' (w_tasks (cw c))) cs w' /\
    Forall (fun ch => t_cmd ch = t_cmd d) cs.
Proof.
  intros O c fuel t e j x l d ds HR Hf Hin Hif Hp He Hj Hl Hds Hs.
  destruct (C10_each_shares_commands O c fuel t e j _ _ HR Hf Hin Hif Hp He Hj Hl Hds)
    as (w' & cs & u & u' & eu & eu' & H1 & H2 & H3 & _ & _ & _ & _ & H4 & _).
  exists w', cs, u'. split; [exact H1|]. split; [exact H2|]. split; [exact H4|].
  inversion Hds as [|? ? ? ? ? ? Hd Hrest]; subst.
  assert (HF : Forall (fun d' => t_cmd d' = t_cmd d) (d :: ds)).
  { constructor; [reflexivity|]. eapply later_commands; [exact Hrest| |exact Hs]. destruct (e_task e); reflexivity. }
  apply Forall_forall. intros ch Hch. apply In_nth_error in Hch as (k & Ek). destruct (H3 k ch Ek) as (d' & Ed & ->).
  rewrite Forall_forall in HF. apply nth_error_In in Ed. rewrite <- (HF d' Ed). destruct d'; reflexivity.
Qed.
Print Assumptions C10_first_command_for_all_refuted.

(** A list of two elements "a" and "b" and the command {{item.value}}: both children are created with the command "a". *)
Definition O_item : oracle := mkOracle string
  (fun _ x s => inl match x with Some (_, _, v) => if String.eqb s "{{item.value}}" then v else s | None => s end)
  (fun _ _ => inl (Some ["a"; "b"])) (fun _ => Some 5).
Definition cmd_task : task := blank_task <| t_name := "each" |>
  <| t_each := Some (mkEach "" "xs" (simple "body" <| t_cmd := ["{{item.value}}"] |>) 0 0 0 0) |>.
Definition each_cmd_run : config :=
  sim_c O_item start [CApi (OSubmit (demo_job [cmd_task])); CRun 0 100; CDeliver 0; CRun 1 100; CDeliver 1; CRun 2 100].
Example C10_first_command_example : reachable O_item each_cmd_run /\
  map t_cmd (filter (fun t => negb (is_noid (t_parent t))) (w_tasks (cw each_cmd_run))) = [["a"]; ["a"]].
Proof.
  split; [|vm_compute; reflexivity].
  apply sim_c_reachable; [repeat (constructor; [cbn; unfold accepted; cbn; repeat split; repeat constructor; easy|]); try constructor|reflexivity].
Qed.
